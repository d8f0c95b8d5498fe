(** Proofs: a record written by the generated code of one type and read by that of another. *)
From Coq Require Import List NArith ZArith Lia Bool ZifyBool ZifyNat ZifyN.
From Verif Require Import Base BaseLemmas OperationsModel MsgpackModel MsgpackSpec MsgpackClient MsgpackIOProofs MsgpackProofs
  MsgpackReadProofs MsgpackSizeProofs MsgpackTreeProofs TransformProofs GenModel GenSpec GenCheckProofs GenProofs.
Import ListNotations.
Open Scope N_scope.

(** ** What is written is one MessagePack value *)
Definition tree (calls : list (prim + gov)) : Prop := exists m, calls_bytes calls = mv_bytes m /\ mv_ok m /\ skippable m.
Notation near := (Forall near_call).

Lemma scal_skippable : forall s, near_call (inl (PVal s)) -> skippable (scal_mv s).
Proof.
  intros s N0. destruct s; try exact Logic.I. cbn [scal_mv skippable near_call] in *. unfold time_data.
  assert (L4 : forall v, len (be 4 v) = 4) by (intro; apply (be_len 4)). assert (L8 : forall v, len (be 8 v) = 8) by (intro; apply (be_len 8)).
  destruct (((0 <=? t_sec t)%Z && (t_sec t <? 2 ^ 32)%Z && (t_nsec t =? 0))) eqn:A; [rewrite L4; split; [reflexivity|discriminate]|].
  replace ((0 <=? t_sec t)%Z && (t_sec t <? 2 ^ 34)%Z) with true by lia. rewrite L8. split; [reflexivity|discriminate].
Qed.
Lemma tree_nil : tree [inl PNil].
Proof. exists MNil. repeat split. Qed.
Lemma tree_value : forall k s calls, scal_ok s -> value k s = Some calls -> near calls -> tree calls.
Proof.
  intros k s calls S W N0. unfold value in W. destruct k as [k|]; [|discriminate W]. destruct (kind_eqb k (kind_of s)); [|discriminate W]. injection W as <-.
  inversion N0 as [|? ? N1 _]; subst. exists (scal_mv s). split; [apply one_bytes|]. split; [apply scal_mv_ok, S|apply scal_skippable, N1].
Qed.
Lemma tree_pointer : forall k o calls, match o with Some s => scal_ok s | None => True end -> pointer k o = Some calls -> near calls -> tree calls.
Proof.
  intros k o calls S W N0. unfold pointer in W. destruct k as [k|]; [|discriminate W]. destruct o as [s|].
  - destruct (kind_eqb k (kind_of s)); [|discriminate W]. injection W as <-. inversion N0 as [|? ? N1 _]; subst.
    exists (scal_mv s). split; [apply one_bytes|]. split; [apply scal_mv_ok, S|apply scal_skippable; destruct s; exact N1].
  - injection W as <-. exists MNil. repeat split.
Qed.
Lemma join_inv : forall {A} (a b : option (list A)) c, join a b = Some c -> exists x y, a = Some x /\ b = Some y /\ c = x ++ y.
Proof. intros A [x|] [y|] c H; try discriminate H. injection H as <-. exists x, y. repeat split. Qed.

Section Env.
Variable f64to32 : N -> N.
Variable pt : bytes -> option gtime.
Context {C : Type}.
Variable parse : N -> scal -> option C.
Variable format : N -> C -> scal.
Variable imported : N -> bool.
Variable types : N -> option def.
Hypothesis types_ok : forall n d, types n = Some d -> def_ok imported d.
Notation val := (gval C).
Notation write := (msgpackWrite format imported types).
Notation dec := (decode f64to32 pt parse imported types).
Notation vtype := (of_type parse format imported types).
Notation bk := (back (C := C) imported types).

Definition P (v : val) : Prop := forall o t calls, vtype o t v -> write t o v = Some calls -> near calls -> tree calls.
Definition Prec (l : list val) : Prop := forall n calls, whole types vtype n l -> encode types write n l = Some calls -> near calls -> tree calls.

Lemma items_tree : forall o u l calls, Forall P l -> all (fun v => vtype o u v) l -> each_item write o u l = Some calls -> near calls ->
  exists ms, length ms = length l /\ calls_bytes calls = flat_map mv_bytes ms /\ Forall mv_ok ms /\ Forall skippable ms.
Proof.
  intros o u. induction l as [|v l IH]; intros calls H T W N0; cbn [each_item all] in *.
  - injection W as <-. exists []. repeat split; constructor.
  - apply join_inv in W. destruct W as (x & y & W1 & W2 & ->). apply Forall_app in N0. destruct N0 as [N1 N2]. inversion H as [|? ? H1 H2]; subst. destruct T as [T1 T2].
    destruct (H1 _ _ _ T1 W1 N1) as (m & B & O & S). destruct (IH y H2 T2 W2 N2) as (ms & L & Bs & Os & Ss).
    exists (m :: ms). cbn [length flat_map]. rewrite calls_bytes_app, B, Bs, L. repeat split; constructor; assumption.
Qed.
Lemma pairs_tree : forall k o u l calls, Forall (fun kv => P (snd kv)) l -> all (fun kv => of_prim k (fst kv) /\ vtype o u (snd kv)) l -> each_pair write o u l = Some calls -> near calls ->
  exists ms, length ms = length l /\ calls_bytes calls = flat_map (fun kv => mv_bytes (fst kv) ++ mv_bytes (snd kv)) ms /\
    Forall (fun kv => mv_ok (fst kv) /\ mv_ok (snd kv)) ms /\ Forall (fun kv => skippable (fst kv) /\ skippable (snd kv)) ms.
Proof.
  intros k o u. induction l as [|[q v] l IH]; intros calls H T W N0; cbn [each_pair all fst snd] in *.
  - injection W as <-. exists []. repeat split; constructor.
  - apply join_inv in W. destruct W as (x0 & z & W0 & W & ->). injection W0 as <-. apply join_inv in W. destruct W as (x & y & W1 & W2 & ->).
    inversion N0 as [|? ? Nq N1]; subst. apply Forall_app in N1. destruct N1 as [N1 N2]. inversion H as [|? ? H1 H2]; subst. cbn [snd] in H1. destruct T as [[[_ Tq] T1] T2].
    destruct (H1 _ _ _ T1 W1 N1) as (m & B & O & S). destruct (IH y H2 T2 W2 N2) as (ms & L & Bs & Os & Ss).
    exists ((scal_mv q, m) :: ms). cbn [length flat_map fst snd].
    rewrite !calls_bytes_app, one_bytes, B, Bs, L, <- app_assoc. cbn [prim_bytes]. repeat split; constructor; try assumption; cbn [fst snd]; split; try assumption; [apply scal_mv_ok, Tq|apply scal_skippable, Nq].
Qed.
Lemma fields_tree : forall fs l calls, Forall P l -> every (fun o t v => vtype o t v) fs l -> Forall (fun f => scal_ok (SStr (fst f))) fs -> each_field write fs l = Some calls -> near calls ->
  exists ms, length ms = length fs /\ calls_bytes calls = flat_map (fun kv => mv_bytes (fst kv) ++ mv_bytes (snd kv)) ms /\
    Forall (fun kv => mv_ok (fst kv) /\ mv_ok (snd kv)) ms /\ Forall (fun kv => skippable (fst kv) /\ skippable (snd kv)) ms.
Proof.
  induction fs as [|[name [o t]] fs IH]; intros [|v l] calls H T F W N0; cbn [each_field every fst snd] in *; try contradiction.
  - injection W as <-. exists []. repeat split; constructor.
  - apply join_inv in W. destruct W as (x0 & z & W0 & W & ->). injection W0 as <-. apply join_inv in W. destruct W as (x & y & W1 & W2 & ->).
    inversion N0 as [|? ? Nq N1]; subst. apply Forall_app in N1. destruct N1 as [N1 N2]. inversion H as [|? ? H1 H2]; subst. inversion F as [|? ? F1 F2]; subst. destruct T as [T1 T2].
    destruct (H1 _ _ _ T1 W1 N1) as (m & B & O & S). destruct (IH l y H2 T2 F2 W2 N2) as (ms & L & Bs & Os & Ss).
    exists ((scal_mv (SStr name), m) :: ms). cbn [length flat_map fst snd].
    rewrite !calls_bytes_app, one_bytes, B, Bs, L, <- app_assoc. cbn [prim_bytes]. repeat split; constructor; try assumption; cbn [fst snd]; split; try assumption; apply scal_mv_ok, F1.
Qed.
Lemma map_tree : forall n (ms : list (mv * mv)) calls, len ms = n -> n < 2^32 -> calls_bytes calls = flat_map (fun kv => mv_bytes (fst kv) ++ mv_bytes (snd kv)) ms ->
  Forall (fun kv => mv_ok (fst kv) /\ mv_ok (snd kv)) ms -> Forall (fun kv => skippable (fst kv) /\ skippable (snd kv)) ms -> near_call (inl (PMap n)) ->
  tree ([inl (PMap n)] ++ calls).
Proof.
  intros n ms calls L Ln B O S N0. exists (MMap (short_len 16 false n) ms). rewrite calls_bytes_app, one_bytes, B. cbn [prim_bytes mv_bytes mv_ok skippable]. rewrite L.
  split; [reflexivity|]. split; [|split; [exact N0|rewrite all_Forall; exact S]]. split; [apply short_len_not8|]. split; [apply short_len_limit; exact Ln|rewrite all_Forall; exact O].
Qed.

Lemma recs_tree : forall l, Forall P l -> Prec l.
Proof.
  intros l H n calls T W N0. unfold whole in T. unfold encode in W. destruct (types n) as [d|] eqn:E; [|contradiction]. destruct (types_ok n d E) as (_ & Ln & Fs).
  destruct d as [fs|fs].
  - apply join_inv in W. destruct W as (x & y & W1 & W2 & ->). injection W1 as <-. apply Forall_app in N0. destruct N0 as [N1 N2]. inversion N1 as [|? ? N3 _]; subst. cbn [fields] in *.
    assert (F : Forall (fun f => scal_ok (SStr (fst f))) fs) by (eapply Forall_impl; [|exact Fs]; intros f [Q _]; exact Q).
    destruct (fields_tree fs l y H T F W2 N2) as (ms & L & B & O & S). apply (map_tree (len fs) ms y); try assumption. unfold len. rewrite L. reflexivity.
  - cbn [fields] in *. clear Ln E n. revert l H T W. induction fs as [|[name t] fs IH]; intros [|v l] H T W; cbn [map every first_member fst snd] in *; try contradiction.
    + injection W as <-. apply tree_nil.
    + inversion H as [|? ? H1 H2]; subst. inversion Fs as [|? ? [F1 _] F2]; subst. cbn [fst snd] in F1. destruct T as [T1 T2]. destruct (is_nil v).
      * apply (IH F2 l H2 T2 W).
      * apply join_inv in W. destruct W as (x & y & W1 & W2 & ->). injection W1 as <-. inversion N0 as [|? ? Na N1]; subst. inversion N1 as [|? ? Nb N2]; subst.
        destruct (H1 _ _ _ T1 W2 N2) as (m & B & O & S). change ([inl (PMap 1); inl (PVal (SStr name))] ++ y) with ([inl (PMap 1)] ++ ([inl (PVal (SStr name))] ++ y)).
        apply (map_tree 1 [(scal_mv (SStr name), m)]); [reflexivity|reflexivity| | | |exact Na].
        -- rewrite calls_bytes_app, one_bytes, B. cbn [flat_map fst snd prim_bytes]. rewrite app_nil_r. reflexivity.
        -- constructor; [|constructor]. cbn [fst snd]. split; [apply scal_mv_ok, F1|exact O].
        -- constructor; [|constructor]. cbn [fst snd]. split; [exact Logic.I|exact S].
Qed.

Lemma all_tree : forall v, P v /\ match v with VRec l => Prec l | _ => True end.
Proof.
  apply gval_all.
  - split; [|exact Logic.I]. intros o t calls T W N0. destruct t as [p|n|n|n|a p|o' u|k o' u]; cbn [of_type] in T; try subst o; cbn [msgpackWrite] in W;
    try (injection W as <-; apply tree_nil).
    + apply (tree_pointer _ None _ Logic.I W N0).
    + destruct (imported a); [injection W as <-; apply tree_nil|apply (tree_pointer _ None _ Logic.I W N0)].
    + injection W as <-. exists (MArr InTag []). repeat split; discriminate.
    + injection W as <-. exists (MMap InTag []). repeat split; discriminate.
  - split; [|exact Logic.I]. intros o t calls T. destruct t; contradiction.
  - intro s. split; [|exact Logic.I]. intros o t calls T W N0. destruct t as [p|n|n|n|a p|o' u|k o' u]; cbn [of_type] in T; try contradiction; cbn [msgpackWrite] in W.
    + destruct T as [_ [_ S]]. destruct o; [|apply (tree_value _ s _ S W N0)]. destruct (kind_eqb (kind_of s) KBytes); [|discriminate W]. apply (tree_pointer _ (Some s) _ S W N0).
    + destruct T as [-> [_ S]]. apply (tree_value _ s _ S W N0).
    + destruct T as (-> & I & _ & S). rewrite I in W. apply (tree_value _ s _ S W N0).
  - intro c. split; [|exact Logic.I]. intros o t calls T W N0. destruct t as [p|n|n|n|a p|o' u|k o' u]; cbn [of_type] in T; try contradiction; cbn [msgpackWrite] in W.
    destruct T as (-> & I & [_ S] & _). rewrite I in W. apply (tree_value _ _ _ S W N0).
  - intros v [_ R]. split; [|exact Logic.I]. intros o t calls T W N0.
    destruct v as [| |s|c|w|l|l|l]; try (destruct t; contradiction); destruct t as [p|n|n|n|a p|o' u|k o' u]; cbn [of_type] in T; try contradiction; cbn [msgpackWrite] in W.
    + destruct T as (-> & _ & _ & S). destruct (kind_eqb (kind_of s) KBytes); [discriminate W|]. apply (tree_pointer _ (Some s) _ S W N0).
    + destruct T as [-> [_ S]]. apply (tree_pointer _ (Some s) _ S W N0).
    + destruct T as (-> & I & _ & S). rewrite I in W. apply (tree_pointer _ (Some s) _ S W N0).
    + destruct T as (-> & I & [_ S] & _). rewrite I in W. apply (tree_value _ _ _ S W N0).
    + destruct T as [-> T]. apply (R n calls T W N0).
    + destruct T as [-> T]. apply (R n calls T W N0).
  - intros l H. split; [|exact Logic.I]. assert (H' : Forall P l) by (eapply Forall_impl; [|exact H]; intros v [Q _]; exact Q). intros o t calls T W N0.
    destruct t as [p|n|n|n|a p|o' u|k o' u]; cbn [of_type] in T; try contradiction; cbn [msgpackWrite] in W. destruct T as [Ln T].
    apply join_inv in W. destruct W as (x & y & W1 & W2 & ->). injection W1 as <-. rewrite u32_small by exact Ln. apply Forall_app in N0. destruct N0 as [_ N2].
    destruct (items_tree _ _ _ _ H' T W2 N2) as (ms & L & B & O & S). assert (Lm : len ms = len l) by (unfold len; rewrite L; reflexivity).
    exists (MArr (short_len 16 false (len l)) ms). rewrite calls_bytes_app, one_bytes, B. cbn [prim_bytes mv_bytes mv_ok skippable]. rewrite Lm, !all_Forall.
    split; [reflexivity|]. split; [|exact S]. split; [apply short_len_not8|]. split; [apply short_len_limit; exact Ln|exact O].
  - intros l H. split; [|exact Logic.I]. assert (H' : Forall (fun kv => P (snd kv)) l) by (eapply Forall_impl; [|exact H]; intros v [Q _]; exact Q). intros o t calls T W N0.
    destruct t as [p|n|n|n|a p|o' u|k o' u]; cbn [of_type] in T; try contradiction; cbn [msgpackWrite] in W. destruct T as (Ln & _ & T).
    apply join_inv in W. destruct W as (x & y & W1 & W2 & ->). injection W1 as <-. rewrite u32_small in N0 |- * by exact Ln. apply Forall_app in N0. destruct N0 as [N1 N2]. inversion N1 as [|? ? N3 _]; subst.
    destruct (pairs_tree _ _ _ _ _ H' T W2 N2) as (ms & L & B & O & S). apply (map_tree (len l) ms y); try assumption. unfold len. rewrite L. reflexivity.
  - intros l H. assert (H' : Forall P l) by (eapply Forall_impl; [|exact H]; intros v [Q _]; exact Q). pose proof (recs_tree l H') as R. split; [|exact R].
    intros o t calls T W N0. destruct t as [p|n|n|n|a p|o' u|k o' u]; cbn [of_type] in T; try contradiction; cbn [msgpackWrite] in W; destruct T as [-> T]; apply (R n calls T W N0).
Qed.

Lemma skips : forall v o t calls, vtype o t v -> write t o v = Some calls -> near calls -> exists most, forall fuel, (most <= fuel)%nat -> reads (Skip fuel) (calls_bytes calls) tt.
Proof.
  intros v o t calls T W N0. destruct (proj1 (all_tree v) o t calls T W N0) as (m & B & O & S). exists (mv_depth m). intros fuel F. rewrite B. apply skip_tree; assumption.
Qed.

(** ** Two types *)
Notation fields_of := (list (bytes * (bool * ty))).
Lemma assoc_in : forall {A} n (l : list (bytes * A)) x, assoc n l = Some x -> exists a b, l = a ++ (n, x) :: b.
Proof.
  induction l as [|[m y] l IH]; intros x H; cbn [assoc] in H; [discriminate H|]. destruct (list_eq_dec N.eq_dec n m) as [->|D].
  - injection H as ->. exists [], l. reflexivity.
  - destruct (IH x H) as (a & b & ->). exists ((m, y) :: a), b. reflexivity.
Qed.
Lemma assoc_find : forall n (fs : fields_of) i, assoc n fs = None -> find fs n i = None.
Proof.
  induction fs as [|[m y] fs IH]; intros i H; cbn [assoc find] in *; [reflexivity|]. destruct (list_eq_dec N.eq_dec n m) as [->|D]; [discriminate H|].
  destruct (bytes_equal n m) eqn:E; [apply bytes_eqb in E; contradiction|]. apply IH, H.
Qed.
Lemma assoc_not : forall {A} n (l : list (bytes * A)), ~ In n (map fst l) -> assoc n l = None.
Proof.
  induction l as [|[m y] l IH]; intro H; cbn [assoc]; [reflexivity|]. cbn [map fst In] in H. destruct (list_eq_dec N.eq_dec n m) as [->|D]; [tauto|]. apply IH. tauto.
Qed.
Lemma assoc_app : forall {A} n (l k : list (bytes * A)), assoc n (l ++ k) = match assoc n l with Some x => Some x | None => assoc n k end.
Proof. induction l as [|[m y] l IH]; intro k; cbn [assoc app]; [reflexivity|]. destruct (list_eq_dec N.eq_dec n m); [reflexivity|apply IH]. Qed.
Lemma fresh_zero : forall o t, fresh o t = zero o t :> val.
Proof. intros [|] t; destruct t; reflexivity. Qed.

Section Two.
Variables fs1 fs2 : fields_of.
Definition pick (fv : (bytes * (bool * ty)) * val) : option (list (bytes * val)) :=
  match assoc (fst (fst fv)) fs2 with Some _ => option_map (fun w => [(fst (fst fv), w)]) (fback imported types fv) | None => Some [] end.
Lemma kept_trav : forall l fs, kept imported types fs2 fs l = option_map (@concat _) (trav pick (combine fs l)).
Proof.
  induction l as [|v l IH]; intros [|[name [o t]] fs]; try reflexivity. cbn [kept combine trav]. unfold pick at 1. unfold fback. cbn [fst snd]. rewrite (IH fs).
  destruct (assoc name fs2); [destruct (bk o t v)|]; cbn [option_map cons_opt]; try reflexivity; destruct (trav pick (combine fs l)); reflexivity.
Qed.
Lemma picked_names : forall l acc n, trav pick l = Some acc -> ~ In n (map (fun fv => fst (fst fv)) l) -> assoc n (concat acc) = None.
Proof.
  induction l as [|fv l IH]; intros acc n T H; cbn [trav] in T.
  - injection T as <-. reflexivity.
  - destruct (pick fv) as [y|] eqn:P0; [|discriminate T]. destruct (trav pick l) as [ys|]; [|discriminate T]. injection T as <-. cbn [concat map In] in *.
    rewrite assoc_app, (IH ys n eq_refl) by tauto. rewrite assoc_not; [reflexivity|]. unfold pick in P0. destruct (assoc (fst (fst fv)) fs2); [|injection P0 as <-; intros []].
    destruct (fback imported types fv); [|discriminate P0]. injection P0 as <-. cbn [map fst In]. tauto.
Qed.
Lemma carried_other : forall fs ws name w, ~ In name (map fst fs) -> carried fs (ws ++ [(name, w)]) = carried fs ws :> list val.
Proof.
  intros fs ws name w H. unfold carried. apply map_ext_in. intros f I. rewrite assoc_app. destruct (assoc (fst f) ws); [reflexivity|]. cbn [assoc].
  destruct (list_eq_dec N.eq_dec (fst f) name) as [<-|D]; [|reflexivity]. exfalso. apply H. apply in_map, I.
Qed.
Lemma names_combine : forall (fs : fields_of) (l : list val), length fs = length l -> map (fun fv => fst (fst fv)) (combine fs l) = map fst fs.
Proof. induction fs as [|f fs IH]; intros [|v l] L; cbn [length] in L; try lia; [reflexivity|]. cbn [combine map fst]. rewrite IH by lia. reflexivity. Qed.

Lemma most_skips : forall l, (forall name o t v c, In (name, (o, t), v) l -> assoc name fs2 = None -> write t o v = Some c -> vtype o t v /\ near c) ->
  exists most, forall name o t v c, In (name, (o, t), v) l -> assoc name fs2 = None -> write t o v = Some c -> forall fuel, (most <= fuel)%nat -> reads (Skip fuel) (calls_bytes c) tt.
Proof.
  induction l as [|[[name [o t]] v] l IH]; intro H.
  - exists 0%nat. intros name o t v c [].
  - destruct (IH (fun na o1 t1 v1 c I => H na o1 t1 v1 c (or_intror I))) as [most M]. assert (X : exists k, forall c, assoc name fs2 = None -> write t o v = Some c -> forall fuel, (k <= fuel)%nat -> reads (Skip fuel) (calls_bytes c) tt).
    { destruct (write t o v) as [c|] eqn:W; [|exists 0%nat; intros c _ Z; discriminate Z]. destruct (assoc name fs2) eqn:A; [exists 0%nat; intros c' Z; discriminate Z|].
      destruct (H name o t v c (or_introl eq_refl) A W) as [T N0]. destruct (skips v o t c T W N0) as [k K]. exists k. intros c' _ Z. injection Z as <-. exact K. }
    destruct X as [k K]. exists (Nat.max k most). intros name' o' t' v' c [E|I] A W fuel F.
    + injection E as -> -> -> ->. apply (K c A W). lia.
    + apply (M name' o' t' v' c I A W). lia.
Qed.
End Two.

Lemma evolves : forall n1 n2 fs1 fs2 l, types n1 = Some (Rec fs1) -> types n2 = Some (Rec fs2) ->
  (forall name x y, In (name, x) fs1 -> In (name, y) fs2 -> x = y) -> vtype false (TyType n1) (VRec l) ->
  (forall name o t v c, In (name, (o, t), v) (combine fs1 l) -> assoc name fs2 = None -> write t o v = Some c -> near c) ->
  exists calls most, write (TyType n1) false (VRec l) = Some calls /\ calls_ok calls /\
  (len (calls_bytes calls) + calls_excess calls < 2^32 ->
   exists data, ToBytes format imported types n1 (VRec l) = Some (Ret data) /\
   forall fuel, (most <= fuel)%nat -> FromBytes f64to32 pt parse imported types fuel n2 data =
     match kept imported types fs2 fs1 l with Some ws => Ret (VRec (carried fs2 ws)) | None => Panic end).
Proof.
  intros n1 n2 fs1 fs2 l E1 E2 Same T N0. cbn [of_type] in T. destruct T as [_ T]. unfold whole in T. rewrite E1 in T. cbn [fields] in T.
  destruct (types_ok n1 _ E1) as (ND1 & Ln1 & Fs1). destruct (types_ok n2 _ E2) as (ND2 & Ln2 & Fs2). cbn [fields] in *.
  assert (G : Forall (good f64to32 pt parse format imported types) l) by (apply Forall_forall; intros v _; apply (good_all f64to32 pt parse format imported types types_ok v)).
  destruct (fields_written f64to32 pt parse format imported types fs1 l T G Fs1) as (L & (calls & W & O & B) & _).
  destruct (most_skips fs2 (combine fs1 l)) as [most M].
  { intros name o t v c I A Wv. split; [|exact (N0 name o t v c I A Wv)]. apply in_split in I. destruct I as (a & b & Q).
    destruct (every_in pt _ fs1 l a _ v b T Q) as (_ & _ & _ & _ & Tv & _). exact Tv. }
  exists ([inl (PMap (len fs1))] ++ calls), (S (Nat.max most (depth (VRec l)))).
  assert (We : write (TyType n1) false (VRec l) = Some ([inl (PMap (len fs1))] ++ calls)) by (cbn [msgpackWrite]; unfold encode; rewrite E1, W; reflexivity).
  assert (Oe : calls_ok ([inl (PMap (len fs1))] ++ calls)) by (apply calls_ok_app; [apply one_ok; exact Ln1|exact O]).
  split; [exact We|]. split; [exact Oe|]. intro Sz.
  eexists. split; [unfold ToBytes; rewrite We; f_equal; apply to_bytes_result; [apply same_calls_refl|exact Oe|exact Oe|exact Sz]|].
  intros fuel F. destruct fuel as [|f]; [lia|].
  assert (A : answers (dec (S f) n2 VZero) (calls_bytes ([inl (PMap (len fs1))] ++ calls)) (option_map VRec (option_map (carried fs2) (kept imported types fs2 fs1 l)))).
  { rewrite calls_bytes_app, one_bytes, B.
    apply (answers_ext (let! size := ReadMapSize in let! l := times size (entry f64to32 pt parse imported types f (Rec fs2)) (zeros fs2) in rret (VRec l))); [intro x; apply (decode_is f64to32 pt parse imported types f n2 (Rec fs2) E2)|].
    eapply answers_reads; [apply size_reads, Ln1|]. apply answers_map. rewrite kept_trav.
    assert (Lc : len fs1 = len (combine fs1 l)) by (unfold len; rewrite combine_length, L, Nat.min_id; reflexivity). rewrite Lc.
    pose proof (loop_answers (pick fs2) (fbytes format imported types) (entry f64to32 pt parse imported types f (Rec fs2)) (fun acc => carried fs2 (concat acc)) (combine fs1 l) [] [] eq_refl) as Q.
    cbn [app concat] in Q. assert (Z : carried fs2 [] = zeros fs2 :> list val) by (unfold carried, zeros; apply map_ext; intro; apply fresh_zero). rewrite Z in Q.
    replace (option_map (carried fs2) (option_map (@concat _) (trav (pick fs2) (combine fs1 l)))) with (option_map (fun ys => carried fs2 (concat ys)) (trav (pick fs2) (combine fs1 l))) by (destruct (trav (pick fs2) (combine fs1 l)); reflexivity).
    apply Q. clear Q Z. intros pre' [[name [o t]] v] post acc' Eq Tr.
    destruct (every_in pt _ fs1 l pre' _ v post T Eq) as (a1 & b1 & Ef & La & Tv & Iv). cbn [fst snd] in Tv.
    assert (If : In (name, (o, t)) fs1) by (rewrite Ef; apply in_or_app; right; left; reflexivity).
    rewrite Forall_forall in G, Fs1. destruct (Fs1 _ If) as [S P0]. cbn [fst snd] in S, P0.
    assert (Ic : In (name, (o, t), v) (combine fs1 l)) by (rewrite Eq; apply in_or_app; right; left; reflexivity).
    unfold pick, fbytes, fback. cbn [fst snd]. destruct (assoc name fs2) as [y|] eqn:As.
    - destruct (assoc_in _ _ _ As) as (a & b & E2'). assert (y = (o, t)) as -> by (symmetry; apply (Same name); [exact If|rewrite E2'; apply in_or_app; right; left; reflexivity]).
      assert (Nn : assoc name (concat acc') = None).
      { apply (picked_names fs2 _ _ _ Tr). pose proof ND1 as Nd. rewrite <- (names_combine fs1 l L), Eq, map_app in Nd. cbn [map fst] in Nd. apply NoDup_remove_2 in Nd.
        intro Z. apply Nd, in_or_app. left. exact Z. }
      destruct (entry_answers f64to32 pt parse format imported types f (Rec fs2) a name o t b v (carried a (concat acc')) (carried b (concat acc')) E2' ND2 S P0 (G v Iv) Tv) as (c & W1 & _ & A).
      { unfold carried. apply map_length. }
      rewrite W1. specialize (A ltac:(pose proof (depth_in l v Iv); cbn [depth] in F; lia)).
      rewrite E2', map_app in ND2. cbn [map fst] in ND2. pose proof (NoDup_remove_2 _ _ _ ND2) as Nd.
      assert (C0 : carried fs2 (concat acc') = carried a (concat acc') ++ zero o t :: carried b (concat acc')).
      { rewrite E2'. unfold carried at 1. rewrite map_app. cbn [map fst snd]. rewrite Nn, fresh_zero. reflexivity. }
      rewrite C0. destruct (bk o t v) as [w|]; cbn [option_map] in *; [|exact A].
      assert (C1 : carried fs2 (concat (acc' ++ [[(name, w)]])) = carried a (concat acc') ++ w :: carried b (concat acc')).
      { rewrite concat_app. cbn [concat app]. rewrite E2'. unfold carried at 1. rewrite map_app. cbn [map fst snd]. rewrite assoc_app, Nn. cbn [assoc].
        destruct (list_eq_dec N.eq_dec name name) as [_|X]; [|contradiction]. fold (carried a (concat acc' ++ [(name, w)])). fold (carried b (concat acc' ++ [(name, w)])).
        rewrite !carried_other; [reflexivity|intro Z; apply Nd, in_or_app; right; exact Z|intro Z; apply Nd, in_or_app; left; exact Z]. }
      rewrite C1. exact A.
    - destruct (G v Iv o t Field P0 Tv) as (c & W1 & _ & _). rewrite W1. cbn [option_map]. rewrite concat_app. cbn [concat]. rewrite !app_nil_r.
      unfold entry. eapply answers_reads; [apply name_reads, S|]. cbn [fields]. rewrite (assoc_find name fs2 0 As).
      rewrite <- (app_nil_r (calls_bytes c)). eapply answers_reads; [apply (M name o t v c Ic As W1); lia|]. cbn [answers]. apply reads_ret. }
  unfold FromBytes. set (bs := calls_bytes ([inl (PMap (len fs1))] ++ calls)) in *. set (ex := calls_excess ([inl (PMap (len fs1))] ++ calls)) in *.
  assert (Fi : fits [] (bs ++ repeat 0 (N.to_nat ex))) by (unfold fits; rewrite len_app, len_repeat; change (len (@nil N)) with 0; lia).
  change (new_dr (bs ++ repeat 0 (N.to_nat ex))) with (at_ [] (bs ++ repeat 0 (N.to_nat ex))).
  destruct (kept imported types fs2 fs1 l) as [ws|]; cbn [option_map answers] in *; rewrite (A [] _ Fi); reflexivity.
Qed.
End Env.
