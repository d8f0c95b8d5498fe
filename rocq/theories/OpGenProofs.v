(** Proofs about the generated invokers and wrappers. *)
From Coq Require Import List NArith ZArith Lia Bool ZifyBool ZifyNat ZifyN.
From Verif Require Import Base BaseLemmas OperationsModel MsgpackModel MsgpackSpec MsgpackClient MsgpackIOProofs MsgpackProofs
  MsgpackReadProofs MsgpackSizeProofs TransformModel TransformProofs GenModel GenSpec GenCheckProofs GenProofs OpGenModel OpGenSpec.
Import ListNotations.
Open Scope N_scope.

Lemma stream_params_app : forall l k, stream_params (l ++ k) = stream_params l ++ stream_params k.
Proof. induction l as [|[n [o t|t]] l IH]; intro k; cbn [stream_params app]; rewrite ?IH; reflexivity. Qed.
Lemma no_stream_iff : forall l, no_stream l <-> stream_params l = [].
Proof.
  induction l as [|[n [o t|t]] l IH]; cbn [stream_params].
  - split; [reflexivity|intros _ n t []].
  - rewrite <- IH. split; intros H m u I; [apply (H m u); right; exact I|destruct I as [E|I]; [discriminate E|apply (H m u I)]].
  - split; [intro H; exfalso; apply (H n t); left; reflexivity|discriminate].
Qed.
Lemma one_stream_split : forall l t, stream_params l = [t] -> exists l1 n l2, l = l1 ++ (n, Many t) :: l2 /\ no_stream l1 /\ no_stream l2.
Proof.
  induction l as [|[n [o u|u]] l IH]; intros t H; cbn [stream_params] in H; [discriminate H| |].
  - destruct (IH t H) as (l1 & m & l2 & -> & A & B). exists ((n, One o u) :: l1), m, l2. split; [reflexivity|]. split; [|exact B].
    apply no_stream_iff. cbn [stream_params]. apply no_stream_iff. exact A.
  - injection H as -> H. exists [], n, l. split; [reflexivity|]. split; [intros m u []|apply no_stream_iff; exact H].
Qed.
Lemma last_split : forall l1 n t l2, no_stream l1 -> (stream_last (l1 ++ (n, Many t) :: l2) = true <-> l2 = []).
Proof.
  induction l1 as [|[m [o u|u]] l1 IH]; intros n t l2 H.
  - destruct l2; cbn [stream_last app]; split; intro E; try reflexivity; discriminate E.
  - cbn [app stream_last]. assert (H' : no_stream l1) by (intros a b I; apply (H a b); right; exact I). rewrite <- (IH n t l2 H').
    destruct (l1 ++ (n, Many t) :: l2) eqn:E; [destruct l1; discriminate E|reflexivity].
  - exfalso. apply (H m u). left. reflexivity.
Qed.
Lemma last_none : forall l, no_stream l -> stream_last l = true.
Proof.
  induction l as [|[m [o u|u]] l IH]; intro H; [reflexivity| |exfalso; apply (H m u); left; reflexivity].
  cbn [stream_last]. destruct l; [reflexivity|]. apply IH. intros a b I. apply (H a b). right. exact I.
Qed.
Lemma in_plain : forall l n o t, In (n, (o, t)) (plain_params l) <-> In (n, One o t) l.
Proof.
  induction l as [|[m [o' u|u]] l IH]; intros n o t; cbn [plain_params In]; [reflexivity| |].
  - rewrite IH. split; (intros [E|I]; [left; congruence|right; exact I]).
  - rewrite IH. split; [intro I; right; exact I|intros [E|I]; [discriminate E|exact I]].
Qed.

Section Types.
Variable imported : N -> bool.
Lemma args_plain : forall l, args_compile imported l = true <-> plain_all imported l.
Proof.
  intro l. unfold args_compile, plain_all. rewrite forallb_forall. split.
  - intros H n o t I. apply in_plain in I. specialize (H _ I). cbn [fst snd] in H. apply compiles.
    destruct (typeds (msgpackRead imported VField t o) [(VField, gotyo o t)]) as [s|]; [exists s; reflexivity|discriminate H].
  - intros H [n [o t]] I. cbn [fst snd]. apply in_plain in I. destruct (proj2 (compiles imported o t) (H _ _ _ I)) as [s ->]. reflexivity.
Qed.
Lemma kind_eqb_same : forall k, kind_eqb k k = true. Proof. destruct k; reflexivity. Qed.

Lemma client_in_ok : forall t, is_some (fun e => takes_value imported e t) (client_request (Unary t)) = caller_in t.
Proof. intros [p|n|n|n|a p|o u|k o u]; cbn; try rewrite N.eqb_refl; try reflexivity. destruct p; reflexivity. Qed.
Lemma server_in_ok : forall t, is_some (fun d => gives_value imported d t) (server_request imported (Unary t)) = handler_in imported t.
Proof.
  intros [p|n|n|n|a p|o u|k o u]; cbn [server_request handler_in is_some].
  - destruct p; reflexivity.
  - cbn. rewrite N.eqb_refl. reflexivity.
  - cbn. rewrite N.eqb_refl. reflexivity.
  - cbn. rewrite N.eqb_refl. reflexivity.
  - destruct (imported a) eqn:I; destruct p; cbn; rewrite ?I, ?N.eqb_refl; reflexivity.
  - reflexivity.
  - reflexivity.
Qed.
Lemma client_item_ok : forall t, is_some (fun e => takes_value imported e t) (client_item imported t) = caller_item imported t.
Proof.
  intros [p|n|n|n|a p|o u|k o u]; cbn [client_item caller_item simple object orb is_some].
  - destruct p; reflexivity.
  - cbn. rewrite N.eqb_refl. reflexivity.
  - cbn. rewrite N.eqb_refl. reflexivity.
  - cbn. rewrite N.eqb_refl. reflexivity.
  - destruct (imported a) eqn:I; destruct p; cbn; rewrite ?I, ?N.eqb_refl; reflexivity.
  - reflexivity.
  - reflexivity.
Qed.
Lemma server_item_ok : forall t, is_some (fun d => gives_value imported d t) (server_item imported t) = handler_item imported t.
Proof.
  intros [p|n|n|n|a p|o u|k o u]; unfold handler_item; cbn [server_item simple object orb is_some].
  - destruct p; reflexivity.
  - cbn. rewrite N.eqb_refl. reflexivity.
  - cbn. rewrite N.eqb_refl. reflexivity.
  - cbn. rewrite N.eqb_refl. reflexivity.
  - destruct (imported a) eqn:I; destruct p; cbn; rewrite ?I, ?N.eqb_refl; reflexivity.
  - cbn. reflexivity.
  - cbn. reflexivity.
Qed.
Lemma gty_eqb_refl : forall g, gty_eqb g g = true.
Proof. induction g; cbn [gty_eqb]; rewrite ?kind_eqb_same, ?N.eqb_refl, ?IHg, ?IHg1, ?IHg2; reflexivity. Qed.

Lemma client_out_ok : forall r t, r = ROne t \/ r = RMany (Some t) -> is_some (fun d => gives_value imported d t) (snd (client_response imported r)) = one_result imported t.
Proof.
  intros r t H. unfold one_result. replace (snd (client_response imported r)) with (snd (client_response imported (ROne t))) by (destruct H as [->| ->]; reflexivity). clear H r.
  destruct t as [p|n|n|n|a p|o u|k o u]; cbn [client_response snd simple object orb is_some].
  - destruct p; reflexivity.
  - cbn. rewrite N.eqb_refl. reflexivity.
  - cbn. rewrite N.eqb_refl. reflexivity.
  - cbn. rewrite N.eqb_refl. reflexivity.
  - destruct (imported a) eqn:I; destruct p; cbn; rewrite ?I, ?N.eqb_refl; reflexivity.
  - cbn [gives_value]. destruct o; [reflexivity|]. unfold gotyo. cbn [negb andb]. rewrite gty_eqb_refl, andb_true_r. destruct u; reflexivity.
  - reflexivity.
Qed.
Lemma server_one_ok : forall t, is_some (fun e => takes_value imported e t) (snd (server_response imported (ROne t))) = one_result imported t.
Proof.
  intro t. unfold one_result. destruct t as [p|n|n|n|a p|o u|k o u]; cbn [server_response snd simple object orb is_some].
  - destruct p; reflexivity.
  - cbn. rewrite N.eqb_refl. reflexivity.
  - cbn. rewrite N.eqb_refl. reflexivity.
  - cbn. rewrite N.eqb_refl. reflexivity.
  - destruct (imported a) eqn:I; destruct p; cbn; rewrite ?I, ?N.eqb_refl; reflexivity.
  - cbn [takes_value]. destruct o; [reflexivity|]. unfold gotyo. cbn [negb andb]. rewrite gty_eqb_refl, andb_true_r. destruct u; reflexivity.
  - reflexivity.
Qed.
Lemma server_many_ok : forall t, rx_eqb Flux (fst (server_response imported (RMany (Some t)))) && is_some (fun e => takes_value imported e t) (snd (server_response imported (RMany (Some t)))) = simple imported t.
Proof.
  intro t. destruct t as [p|n|n|n|a p|o u|k o u]; cbn [server_response fst snd simple is_some returnPackage rx_eqb andb].
  - destruct p; reflexivity.
  - reflexivity.
  - reflexivity.
  - cbn. rewrite N.eqb_refl. reflexivity.
  - destruct (imported a) eqn:I; destruct p; cbn; rewrite ?I, ?N.eqb_refl; reflexivity.
  - reflexivity.
  - reflexivity.
Qed.

(** The part of the tests about the result. *)
Definition client_tail (s : bool) (r : result) : bool :=
  rx_eqb (match s, r with false, (RVoid | ROne _) => Mono | _, _ => Flux end) (fst (client_response imported r)) && rx_eqb (fst (client_response imported r)) (returnPackage r)
  && match r with RVoid | RMany None => true | ROne t | RMany (Some t) => is_some (fun d => gives_value imported d t) (snd (client_response imported r)) end.
Lemma client_tail_ok : forall s r, client_tail s r = true <-> caller_out imported s r.
Proof.
  intros s [|t|[t|]]; unfold client_tail, caller_out.
  - destruct s; cbn; split; intro H; try reflexivity; discriminate H.
  - rewrite (client_out_ok _ t (or_introl eq_refl)). destruct s; cbn; [split; intro H; [discriminate H|destruct H as [H _]; discriminate H]|split; [intro H; split; [reflexivity|exact H]|intros [_ H]; exact H]].
  - rewrite (client_out_ok _ t (or_intror eq_refl)). destruct s; reflexivity.
  - destruct s; cbn; split; intro H; try contradiction; discriminate H.
Qed.
Definition server_tail (s : bool) (r : result) : bool :=
  rx_eqb (match s, r with false, (RVoid | ROne _) => Mono | _, _ => Flux end) (fst (server_response imported r)) && rx_eqb (fst (server_response imported r)) (returnPackage r)
  && match r with RVoid | RMany None => true | ROne t | RMany (Some t) => is_some (fun d => takes_value imported d t) (snd (server_response imported r)) end.
Lemma server_tail_ok : forall s r, server_tail s r = true <-> handler_out imported s r.
Proof.
  intros s [|t|[t|]]; unfold server_tail, handler_out.
  - destruct s; cbn; split; intro H; try reflexivity; discriminate H.
  - rewrite server_one_ok. assert (E : fst (server_response imported (ROne t)) = Mono) by (destruct t; reflexivity). rewrite E.
    destruct s; cbn; [split; intro H; [discriminate H|destruct H as [H _]; discriminate H]|split; [intro H; split; [reflexivity|exact H]|intros [_ H]; exact H]].
  - rewrite <- server_many_ok. cbn [returnPackage]. destruct (fst (server_response imported (RMany (Some t)))); destruct s; reflexivity.
  - destruct s; cbn; split; intro H; try contradiction; discriminate H.
Qed.

Lemma invoker : forall x, client_compiles imported x = true <-> asks imported x.
Proof.
  intros [i r]. unfold client_compiles, asks, wire. cbn [o_in o_out].
  destruct i as [t|n l].
  - cbn [one_stream streams streamIn]. rewrite client_in_ok. rewrite <- client_tail_ok. unfold client_tail. rewrite <- !andb_true_iff. cbn [andb]. rewrite !andb_assoc, andb_true_r. reflexivity.
  - unfold one_stream, streamIn. cbn [streams]. destruct (stream_params l) as [|t [|t2 ts]] eqn:E.
    + cbn [andb]. rewrite andb_true_r. rewrite <- !andb_assoc. rewrite andb_true_iff, args_plain.
      pose proof (client_tail_ok false r) as Q. unfold client_tail in Q. rewrite <- !andb_assoc in Q. rewrite Q. split.
      * intros [A B]. split; [exact A|]. left. split; [apply no_stream_iff, E|exact B].
      * intros [A [[_ B]|(l1 & m & t & l2 & -> & N1 & N2 & _)]]; [split; assumption|]. exfalso. rewrite stream_params_app in E. cbn [stream_params] in E. destruct (stream_params l1); discriminate E.
    + cbn [andb]. rewrite <- !andb_assoc. rewrite andb_true_iff, args_plain, andb_true_iff, client_item_ok.
      pose proof (client_tail_ok true r) as Q. unfold client_tail in Q. rewrite <- !andb_assoc in Q. rewrite Q. split.
      * intros [A [B D]]. split; [exact A|]. right. destruct (one_stream_split l t E) as (l1 & m & l2 & -> & N1 & N2). exists l1, m, t, l2. repeat split; assumption.
      * intros [A [[NS _]|(l1 & m & t' & l2 & -> & N1 & N2 & B & D)]]; [apply no_stream_iff in NS; rewrite NS in E; discriminate E|]. split; [exact A|].
        rewrite stream_params_app in E. cbn [stream_params] in E. rewrite (proj1 (no_stream_iff l1) N1) in E. injection E as <- _. split; assumption.
    + cbn [andb]. split; [discriminate|]. intros [A [[NS _]|(l1 & m & t' & l2 & -> & N1 & N2 & B & D)]]; exfalso.
      * apply no_stream_iff in NS. rewrite NS in E. discriminate E.
      * rewrite stream_params_app in E. cbn [stream_params] in E. rewrite (proj1 (no_stream_iff l1) N1), (proj1 (no_stream_iff l2) N2) in E. discriminate E.
Qed.
Lemma wrapper : forall x, server_compiles imported x = true <-> serves imported x.
Proof.
  intros [i r]. unfold server_compiles, serves, wire. cbn [o_in o_out].
  destruct i as [t|n l].
  - cbn [one_stream streams streamIn]. rewrite server_in_ok. rewrite <- server_tail_ok. unfold server_tail. rewrite <- !andb_true_iff. cbn [andb]. rewrite !andb_assoc, andb_true_r. reflexivity.
  - unfold one_stream, streamIn. cbn [streams]. destruct (stream_params l) as [|t [|t2 ts]] eqn:E.
    + cbn [andb]. rewrite (last_none l (proj2 (no_stream_iff l) E)), !andb_true_r. rewrite <- !andb_assoc. rewrite andb_true_iff, args_plain.
      pose proof (server_tail_ok false r) as Q. unfold server_tail in Q. rewrite <- !andb_assoc in Q. rewrite Q. split.
      * intros [A B]. split; [exact A|]. left. split; [apply no_stream_iff, E|exact B].
      * intros [A [[_ B]|(l1 & m & t & -> & N1 & _)]]; [split; assumption|]. exfalso. rewrite stream_params_app in E. cbn [stream_params] in E. destruct (stream_params l1); discriminate E.
    + cbn [andb]. rewrite <- !andb_assoc. rewrite andb_true_iff, args_plain, andb_true_iff, andb_true_iff, server_item_ok.
      pose proof (server_tail_ok true r) as Q. unfold server_tail in Q. rewrite <- !andb_assoc in Q. rewrite Q. split.
      * intros [A [L [B D]]]. split; [exact A|]. right. destruct (one_stream_split l t E) as (l1 & m & l2 & -> & N1 & N2). apply last_split in L; [subst l2|exact N1]. exists l1, m, t. repeat split; assumption.
      * intros [A [[NS _]|(l1 & m & t' & -> & N1 & B & D)]]; [apply no_stream_iff in NS; rewrite NS in E; discriminate E|]. split; [exact A|]. split; [apply last_split; [exact N1|reflexivity]|].
        rewrite stream_params_app in E. cbn [stream_params] in E. rewrite (proj1 (no_stream_iff l1) N1) in E. injection E as <-. split; assumption.
    + cbn [andb]. split; [discriminate|]. intros [A [[NS _]|(l1 & m & t' & -> & N1 & B & D)]]; exfalso.
      * apply no_stream_iff in NS. rewrite NS in E. discriminate E.
      * rewrite stream_params_app in E. cbn [stream_params] in E. rewrite (proj1 (no_stream_iff l1) N1) in E. discriminate E.
Qed.
End Types.

(** ** What is sent and received *)
Section Data.
Variable f64to32 : N -> N.
Variable pt : bytes -> option gtime.
Variable fmt : gtime -> bytes.
Context {C : Type}.
Variable parse : N -> scal -> option C.
Variable format : N -> C -> scal.
Variable imported : N -> bool.
Variable types : N -> option def.
Hypothesis types_ok : forall n d, types n = Some d -> def_ok imported d.
Notation val := (gval C).
Notation write := (msgpackWrite format imported types).
Notation vtype := (of_type parse format imported types).
Notation bk := (back (C := C) imported types).
Notation passes := (goes f64to32 pt fmt parse format imported types).

Lemma union_write : forall n o (v : val), write (TyUnion n) o v = write (TyType n) o v.
Proof. intros n o v. destruct v as [| |s|c|w|l|l|l]; try reflexivity. Qed.
Lemma union_type : forall n o (v : val), vtype o (TyUnion n) v <-> vtype o (TyType n) v.
Proof. intros n o v. destruct v as [| |s|c|w|l|l|l]; try reflexivity. Qed.
Lemma union_back : forall n o (v : val), bk o (TyUnion n) v = bk o (TyType n) v.
Proof. intros n o v. destruct v as [| |s|c|w|l|l|l]; try reflexivity. Qed.

(** The kinds of functions for values of a scalar type. *)
Definition scal_enc (e : enc) (k : kind) : Prop := e = EToBytes k \/ (e = ETransform k /\ k <> KTime) \/ exists a, e = EGeneric k a.
Definition scal_dec (d : dec) (k : kind) : Prop := d = DRead k \/ (d = DTransform k /\ k <> KTime) \/ (exists a, d = DGeneric k a) \/ exists a, d = DConvert k a.
Lemma scal_passes : forall e d t s, scal_enc e (kind_of s) -> scal_dec d (kind_of s) -> scal_ok s -> write t false (VScal s) = Some [inl (PVal s)] -> bk false t (VScal s) = Some (VScal s) ->
  passes (Some e) (Some d) t (VScal s).
Proof.
  intros e d t s E D S W K. exists e, d, [inl (PVal s)], 0%nat. split; [reflexivity|]. split; [reflexivity|]. split; [exact W|]. split; [apply one_ok; exact S|].
  rewrite one_bytes. intro B. destruct (transform_round f64to32 pt s S) as (data & T & R).
  { cbn [prim_bytes] in B. change (calls_excess [inl (PVal s)]) with (scal_excess s + 0) in B. lia. }
  exists data. split.
  - assert (Q : (if kind_eqb (kind_of s) (kind_of s) then Some (transform_encode s) else None) = Some (Ret data)) by (rewrite kind_eqb_same, T; reflexivity).
    destruct E as [->|[[-> NT]|[a ->]]]; cbn [run_enc]; try exact Q. destruct s; try exact Q. exfalso. apply NT. reflexivity.
  - intros fuel _. rewrite K. assert (Q : match transform_decode f64to32 pt (kind_of s) data with Ret s => Ret (VScal (C := C) s) | Fail e => Fail e | Panic => Panic end = Ret (VScal s)) by (rewrite R; reflexivity).
    destruct D as [->|[[-> NT]|[[a ->]|[a ->]]]]; cbn [run_dec]; try exact Q. destruct (kind_of s); try exact Q. exfalso. apply NT. reflexivity.
Qed.
Lemma time_passes : forall t, scal_ok (STime t) -> text_ok pt fmt (VScal (C := C) (STime t)) -> passes (Some (ETransform KTime)) (Some (DTransform KTime)) (TyPrim NDatetime) (VScal (STime t)).
Proof.
  intros t S (P & O & L). exists (ETransform KTime), (DTransform KTime), [inl (PVal (STime t))], 0%nat. split; [reflexivity|]. split; [reflexivity|]. split; [reflexivity|]. split; [apply one_ok; exact S|].
  intros _. destruct (time_round pt fmt t O L) as (data & T & R). exists data. cbn [run_enc run_dec back]. rewrite T. split; [reflexivity|]. intros fuel _. rewrite R, P. reflexivity.
Qed.

Lemma codec_passes : forall t n v, t = TyType n \/ t = TyUnion n -> vtype false t v -> passes (Some (ECodec (GN n))) (Some (DCodec (GN n))) t v.
Proof.
  intros t n v E T. assert (T' : vtype false (TyType n) v) by (destruct E as [->| ->]; [exact T|apply union_type, T]).
  destruct (round_trip f64to32 pt parse format imported types types_ok n v T') as (calls & most & W & O & H). exists (ECodec (GN n)), (DCodec (GN n)), calls, most.
  split; [reflexivity|]. split; [reflexivity|]. split; [destruct E as [->| ->]; rewrite ?union_write; exact W|]. split; [exact O|].
  replace (bk false t v) with (bk false (TyType n) v) by (destruct E as [->| ->]; [reflexivity|symmetry; apply union_back]). exact H.
Qed.

Lemma items_union : forall n l, each_item write false (TyUnion n) l = each_item write false (TyType n) l.
Proof. induction l as [|v l IH]; cbn [each_item]; rewrite ?union_write, ?IH; reflexivity. Qed.
Lemma back_union : forall n l, back_items bk false (TyUnion n) l = back_items bk false (TyType n) l.
Proof. induction l as [|v l IH]; cbn [back_items]; rewrite ?union_back, ?IH; reflexivity. Qed.
Lemma slice_passes : forall u n v, u = TyType n \/ u = TyUnion n -> vtype false (TyList false u) v -> passes (Some (ESlice (GN n))) (Some (DSlice (GN n))) (TyList false u) v.
Proof.
  intros u n v E T.
  assert (T' : vtype false (TyList false (TyType n)) v).
  { destruct E as [->| ->]; [exact T|]. destruct v as [| |s|c|w|l|l|l]; cbn [of_type] in *; try exact T. destruct T as [L A]. split; [exact L|].
    rewrite all_Forall in *. eapply Forall_impl; [|exact A]. intros w H. apply union_type, H. }
  assert (Eb : bk false (TyList false u) v = bk false (TyList false (TyType n)) v).
  { destruct E as [->| ->]; [reflexivity|]. destruct v; try reflexivity. cbn [back]. rewrite back_union. reflexivity. }
  assert (Ew : write (TyList false u) false v = write (TyList false (TyType n)) false v).
  { destruct E as [->| ->]; [reflexivity|]. destruct v; try reflexivity. cbn [msgpackWrite]. rewrite items_union. reflexivity. }
  assert (X : exists calls most, write (TyList false (TyType n)) false v = Some calls /\ calls_ok calls /\
    forall fuel p rest, (most <= fuel)%nat -> fits p (calls_bytes calls ++ rest) ->
    forall go, go = (fun k d => match times k (fun acc => let! w := (fun d => match decode f64to32 pt parse imported types fuel n VZero d with
        | Ret r => Ret r | Fail (OutOfFuel, d') => Fail (OutOfFuel, d') | Fail (_, d') => Ret (VZero, d') | Panic => Panic end) in rret (acc ++ [w])) [] d with
      | Ret (l, _) => Ret (VList l) | Fail (x, _) => Fail x | Panic => Panic end) ->
    match ReadArraySize (at_ p (calls_bytes calls ++ rest)) with Ret (k, d) => go k d | Fail (_, d) => go 0 d | Panic => Panic end
      = match bk false (TyList false (TyType n)) v with Some w => Ret w | None => Panic end).
  { destruct v as [| |s|c|w|l|l|l]; cbn [of_type] in T'; try contradiction.
    - exists [inl (PArr 0)], 0%nat. split; [reflexivity|]. split; [apply one_ok; reflexivity|]. intros fuel p rest _ F go ->. rewrite one_bytes in *.
      rewrite (asize_reads 0 ltac:(reflexivity) p rest F). reflexivity.
    - destruct T' as [Ln A].
      assert (G : Forall (good f64to32 pt parse format imported types) l) by (apply Forall_forall; intros w _; apply (good_all f64to32 pt parse format imported types types_ok w)).
      destruct (items_written f64to32 pt parse format imported types false (TyType n) l eq_refl G A) as [(calls & W & O & B) K].
      exists ([inl (PArr (len l))] ++ calls), (depth (VList l)). cbn [msgpackWrite]. rewrite W, u32_small by exact Ln. split; [reflexivity|].
      split; [apply calls_ok_app; [apply one_ok; exact Ln|exact O]|]. intros fuel p rest D F go Eg. rewrite calls_bytes_app, one_bytes, B in *.
      rewrite <- app_assoc in F |- *. rewrite (asize_reads (len l) Ln p _ F). subst go.
      set (item := fun d => match decode f64to32 pt parse imported types fuel n VZero d with
        | Ret r => Ret r | Fail (OutOfFuel, d') => Fail (OutOfFuel, d') | Fail (_, d') => Ret (VZero, d') | Panic => Panic end).
      pose proof (loop_answers (bk false (TyType n)) (ibytes format imported types false (TyType n)) (fun acc => let! w := item in rret (acc ++ [w])) (fun acc => acc) l [] [] eq_refl) as Q.
      cbn [app] in Q. assert (H : forall pre' x post acc', l = pre' ++ x :: post -> trav (bk false (TyType n)) pre' = Some acc' ->
        answers (let! w := item in rret (acc' ++ [w])) (ibytes format imported types false (TyType n) x) (option_map (fun y => acc' ++ [y]) (bk false (TyType n) x))).
      { intros pre' x post acc' Eq _. apply answers_map. assert (I : In x l) by (rewrite Eq; apply in_or_app; right; left; reflexivity).
        rewrite all_Forall, Forall_forall in A. specialize (A x I). cbn [depth] in D. pose proof (depth_in l x I) as Dx.
        destruct x as [| |s|c|w|r|r|r]; cbn [of_type] in A; try contradiction; try discriminate A. { destruct w; try contradiction. destruct A as [Z _]; discriminate Z. }
        destruct A as [_ A]. destruct (proj2 (good_all f64to32 pt parse format imported types types_ok (VRec r)) n A) as (c & Wc & _ & _ & R).
        unfold ibytes. cbn [msgpackWrite back]. rewrite Wc. specialize (R fuel ltac:(lia)).
        destruct (back_whole types bk n r) as [z|]; cbn [option_map answers] in *; intros q rest' F'; unfold item; rewrite (R q rest' F'); reflexivity. }
      specialize (Q H). rewrite <- K in Q. cbn [back]. assert (F2 : fits (p ++ prim_bytes (PArr (len l))) (flat_map (ibytes format imported types false (TyType n)) l ++ rest)).
      { unfold fits in *. rewrite !len_app in *. lia. }
      destruct (back_items bk false (TyType n) l) as [ys|]; cbn [option_map answers] in *; rewrite (Q _ _ F2); reflexivity. }
  destruct X as (calls & most & W & O & H). exists (ESlice (GN n)), (DSlice (GN n)), calls, most. split; [reflexivity|]. split; [reflexivity|]. rewrite Ew, Eb. split; [exact W|]. split; [exact O|].
  intro B. eexists. split.
  - cbn [run_enc]. unfold slice_bytes. rewrite W. f_equal. apply to_bytes_result; [apply same_calls_refl|assumption|assumption|assumption].
  - intros fuel D. cbn [run_dec]. unfold slice_value. set (ex := calls_excess calls) in *. set (data := calls_bytes calls ++ repeat 0 (N.to_nat ex)).
    assert (F : fits [] data) by (unfold data, fits; rewrite len_app, len_repeat; change (len (@nil N)) with 0; lia).
    change (new_dr data) with (at_ [] data). exact (H fuel [] (repeat 0 (N.to_nat ex)) D F _ eq_refl).
Qed.

Lemma prim_scal : forall p (v : val), vtype false (TyPrim p) v -> exists s, v = VScal s /\ means p = Some (kind_of s) /\ scal_ok s.
Proof.
  intros p v T. destruct v as [| |s|c|w|l|l|l]; cbn [of_type] in T; try contradiction; try discriminate T.
  - exists s. destruct T as [_ [M S]]. repeat split; assumption.
  - destruct w; try contradiction. destruct T as [Z _]. discriminate Z.
Qed.
Lemma enum_scal : forall n (v : val), vtype false (TyEnum n) v -> exists s, v = VScal s /\ kind_of s = KI32 /\ scal_ok s.
Proof.
  intros n v T. destruct v as [| |s|c|w|l|l|l]; cbn [of_type] in T; try contradiction; try discriminate T.
  - exists s. destruct T as [_ [M S]]. cbn [means] in M. injection M as M. repeat split; [symmetry; exact M|exact S].
  - destruct w; try contradiction; destruct T as [Z _]; discriminate Z.
Qed.
Lemma alias_scal : forall a p (v : val), imported a = false -> vtype false (TyAlias a p) v -> exists s, v = VScal s /\ means p = Some (kind_of s) /\ scal_ok s.
Proof.
  intros a p v I T. destruct v as [| |s|c|w|l|l|l]; cbn [of_type] in T; try contradiction; try discriminate T.
  - exists s. destruct T as (_ & _ & M & S). repeat split; assumption.
  - destruct T as (_ & I' & _). congruence.
  - destruct w; try contradiction; destruct T as [Z _]; discriminate Z.
Qed.
Lemma prim_written : forall p s, means p = Some (kind_of s) -> write (TyPrim p) false (VScal s) = Some [inl (PVal s)].
Proof. intros p s M. cbn [msgpackWrite]. unfold value. replace (encodeFuncs p) with (means p) by (destruct p; reflexivity). rewrite M, kind_eqb_same. reflexivity. Qed.
Lemma enum_written : forall n s, kind_of s = KI32 -> write (TyEnum n) false (VScal s) = Some [inl (PVal s)].
Proof. intros n s M. cbn [msgpackWrite]. unfold value. rewrite M. reflexivity. Qed.
Lemma alias_written : forall a p s, imported a = false -> means p = Some (kind_of s) -> write (TyAlias a p) false (VScal s) = Some [inl (PVal s)].
Proof. intros a p s I M. cbn [msgpackWrite]. rewrite I. unfold value. replace (encodeFuncs p) with (means p) by (destruct p; reflexivity). rewrite M, kind_eqb_same. reflexivity. Qed.

Ltac kinds := first [left; congruence | right; left; split; congruence | right; right; eexists; congruence | right; right; left; eexists; congruence | right; right; right; eexists; congruence].

Lemma unary_passes : forall t v, caller_in t = true -> handler_in imported t = true -> vtype false t v -> passes (client_request (Unary t)) (server_request imported (Unary t)) t v.
Proof.
  intros t v A B T. destruct t as [p|n|n|n|a p|o u|k o u]; cbn [client_request server_request]; try discriminate A.
  - destruct (prim_scal p v T) as (s & -> & M & S). pose proof (prim_written p s M) as W.
    destruct p; cbn [means] in M; injection M as M || discriminate M; try discriminate A; try discriminate B; cbn; apply scal_passes; try exact S; try exact W; try reflexivity; rewrite <- M; kinds.
  - apply codec_passes; [left; reflexivity|exact T].
  - apply codec_passes; [right; reflexivity|exact T].
  - destruct (enum_scal n v T) as (s & -> & M & S). apply scal_passes; try exact S; try reflexivity; [rewrite M; left; reflexivity|rewrite M; right; right; right; eexists; reflexivity|apply enum_written, M].
Qed.

(** Primitive values, enums and aliases of string by transform functions. *)
Definition simple_enc (t : ty) : option enc :=
  match t with
  | TyPrim p => match transformer p with Some k => Some (ETransform k) | None => None end
  | TyEnum n => Some (EGeneric KI32 n)
  | TyAlias a p => if imported a then None else match generic_by_name p with Some k => Some (EGeneric k a) | None => None end
  | _ => None
  end.
Definition simple_dec (t : ty) : option dec :=
  match t with
  | TyPrim p => match transformer p with Some k => Some (DTransform k) | None => None end
  | TyEnum n => Some (DGeneric KI32 n)
  | TyAlias a p => if imported a then None else match generic_by_name p with Some k => Some (DGeneric k a) | None => None end
  | _ => None
  end.
Lemma simple_passes : forall t v, simple imported t = true -> vtype false t v -> text_ok pt fmt v -> passes (simple_enc t) (simple_dec t) t v.
Proof.
  intros t v A T X. destruct t as [p|n|n|n|a p|o u|k o u]; cbn [simple_enc simple_dec]; try discriminate A.
  - destruct (prim_scal p v T) as (s & -> & M & S). pose proof (prim_written p s M) as W.
    destruct p; cbn [means] in M; injection M as M || discriminate M; try discriminate A; cbn [transformer];
      try (apply scal_passes; [rewrite <- M; right; left; split; [reflexivity|discriminate]|rewrite <- M; right; left; split; [reflexivity|discriminate]|exact S|exact W|reflexivity]).
    destruct s; try discriminate M. apply time_passes; assumption.
  - destruct (enum_scal n v T) as (s & -> & M & S). apply scal_passes; try exact S; try reflexivity; [rewrite M; right; right; eexists; reflexivity|rewrite M; right; right; left; eexists; reflexivity|apply enum_written, M].
  - cbn [simple] in A. destruct p; try discriminate A. destruct (imported a) eqn:I; [discriminate A|]. destruct (alias_scal a NString v I T) as (s & -> & M & S). cbn [generic_by_name].
    pose proof (alias_written a NString s I M) as W. cbn [means] in M. injection M as M.
    apply scal_passes; try exact S; try exact W; try reflexivity; rewrite <- M; [right; right; eexists; reflexivity|right; right; left; eexists; reflexivity].
Qed.

Lemma item_passes : forall t v, caller_item imported t = true -> handler_item imported t = true -> vtype false t v -> text_ok pt fmt v -> passes (client_item imported t) (server_item imported t) t v.
Proof.
  intros t v A B T X. destruct t as [p|n|n|n|a p|o u|k o u].
  - pose proof (simple_passes (TyPrim p) v) as Q. destruct p; try discriminate A; apply Q; assumption || reflexivity.
  - apply codec_passes; [left; reflexivity|exact T].
  - apply codec_passes; [right; reflexivity|exact T].
  - apply (simple_passes (TyEnum n) v); assumption || reflexivity.
  - apply (simple_passes (TyAlias a p) v); try assumption. unfold handler_item in B. cbn [object] in B. rewrite orb_false_r in B. exact B.
  - discriminate A.
  - discriminate A.
Qed.
Lemma one_passes : forall t v, one_result imported t = true -> vtype false t v -> text_ok pt fmt v ->
  passes (snd (server_response imported (ROne t))) (snd (client_response imported (ROne t))) t v.
Proof.
  intros t v A T X. destruct t as [p|n|n|n|a p|o u|k o u].
  - apply (simple_passes (TyPrim p) v); try assumption. unfold one_result in A. cbn [object] in A. rewrite !orb_false_r in A. exact A.
  - apply codec_passes; [left; reflexivity|exact T].
  - apply codec_passes; [right; reflexivity|exact T].
  - apply (simple_passes (TyEnum n) v); assumption || reflexivity.
  - apply (simple_passes (TyAlias a p) v); try assumption. unfold one_result in A. cbn [object] in A. rewrite !orb_false_r in A. exact A.
  - destruct o; [discriminate A|]. destruct u; try discriminate A; (apply slice_passes; [tauto|exact T]).
  - discriminate A.
Qed.
Lemma many_passes : forall t v, simple imported t = true -> vtype false t v -> text_ok pt fmt v ->
  passes (snd (server_response imported (RMany (Some t)))) (snd (client_response imported (RMany (Some t)))) t v.
Proof.
  intros t v A T X. pose proof (simple_passes t v A T X) as Q. destruct t; try discriminate A; exact Q.
Qed.
End Data.

(** ** Lists, whatever the data *)
Section Lists.
Context (f64to32 : N -> N) (pt : bytes -> option gtime) {C : Type} (parse : N -> scal -> option C) (imported : N -> bool) (types : N -> option def).
Lemma times_items : forall (item : M (gval C)), (forall d e d', item d = Fail (e, d') -> e = OutOfFuel) ->
  forall k acc d, match times k (fun acc => let! w := item in rret (acc ++ [w])) acc d with
                  | Ret (l, _) => len l = len acc + k
                  | Fail (e, _) => e = OutOfFuel
                  | Panic => True
                  end.
Proof.
  intros item H k acc d. unfold times. induction k as [|k IH] using N.peano_ind; [cbn; lia|]. rewrite N.iter_succ.
  destruct (N.iter k _ _) as [[l d1]|[e d1]|]; [|exact IH|exact Logic.I]. unfold rbind. destruct (item d1) as [[w d2]|[e d2]|] eqn:E; [|eapply H; exact E|exact Logic.I].
  unfold rret. unfold len in *. rewrite app_length. cbn [length]. lia.
Qed.
Lemma any_list : forall fuel n data,
  match run_dec f64to32 pt parse imported types fuel (DSlice (GN n)) data with
  | Ret v => exists l, v = VList l /\ len l = match ReadArraySize (new_dr data) with Ret (k, _) => k | _ => 0 end
  | Fail e => e = OutOfFuel
  | Panic => True
  end.
Proof.
  intros fuel n data. cbn [run_dec]. unfold slice_value.
  set (item := fun d => match decode f64to32 pt parse imported types fuel n VZero d with
    | Ret r => Ret r | Fail (OutOfFuel, d') => Fail (OutOfFuel, d') | Fail (_, d') => Ret (VZero, d') | Panic => Panic end).
  assert (H : forall d e d', item d = Fail (e, d') -> e = OutOfFuel).
  { intros d e d' E. unfold item in E. destruct (decode _ _ _ _ _ _ _ _ _) as [r|[[] r]|]; try discriminate E. injection E as E _. symmetry. exact E. }
  destruct (ReadArraySize (new_dr data)) as [[k d]|[e d]|]; [| |exact Logic.I].
  - pose proof (times_items item H k [] d) as Q. destruct (times _ _ _ _) as [[l d1]|[e d1]|]; [|exact Q|exact Logic.I]. exists l. split; [reflexivity|exact Q].
  - pose proof (times_items item H 0 [] d) as Q. destruct (times _ _ _ _) as [[l d1]|[e1 d1]|]; [|exact Q|exact Logic.I]. exists l. split; [reflexivity|exact Q].
Qed.
End Lists.
