(** Proofs about call sequences, records and transforms. *)
From Coq Require Import List NArith ZArith Lia Bool ZifyBool ZifyNat ZifyN.
From Verif Require Import Base BaseLemmas OperationsModel MsgpackModel MsgpackSpec MsgpackClient MsgpackIOProofs MsgpackProofs
  MsgpackReadProofs MsgpackSizeProofs MsgpackTreeProofs TransformModel TransformSpec.
Import ListNotations.
Open Scope N_scope.
Ltac Zify.zify_post_hook ::= Z.div_mod_to_equations.

Lemma reads_consumes : forall {A} (m : M A) bs a, reads m bs a <-> consumes m bs a.
Proof.
  intros A m bs a. unfold reads, consumes, fits, at_. split; intros H pre rest F; specialize (H pre rest F);
  rewrite H, <- len_app, <- app_assoc; reflexivity.
Qed.

Lemma bytes_eqb : forall a b, bytes_equal a b = true <-> a = b.
Proof.
  induction a as [|x a IH]; intros [|y b]; cbn [bytes_equal]; try (split; [discriminate|discriminate]).
  - tauto.
  - rewrite andb_true_iff, N.eqb_eq, IH. split; [intros [-> ->]; reflexivity|intro H; injection H as -> ->; tauto].
Qed.
Lemma bytes_eqb_dec : forall a b, bytes_equal a b = if list_eq_dec N.eq_dec a b then true else false.
Proof.
  intros a b. destruct (list_eq_dec N.eq_dec a b) as [->|N]; [apply bytes_eqb; reflexivity|].
  destruct (bytes_equal a b) eqn:E; [apply bytes_eqb in E; contradiction|reflexivity].
Qed.

Section Env.
Variable f64to32 : N -> N.
Variable pt : bytes -> option gtime.

(** ** Call sequences *)
Lemma prim_reads : forall p k, prim_ok p -> (match p with POpt (Some s) => kind_of s = k | _ => True end) ->
  reads (read_shape f64to32 pt (shape_of p k)) (prim_bytes p) p.
Proof.
  intros p k O K. destruct p as [|s|[s|]|n|n]; cbn [shape_of read_shape prim_bytes prim_ok] in *.
  - apply reads_bind0 with (a := true); [apply nil_reads|apply reads_ret].
  - apply reads_bind0 with (a := s); [apply scal_reads, O|apply reads_ret].
  - subst k. apply reads_bind0 with (a := Some s); [|apply reads_ret].
    destruct (scal_head s O) as (b & bs & E & _ & N). rewrite E. apply nillable_some; [assumption|]. rewrite <- E. apply scal_reads, O.
  - apply reads_bind0 with (a := @None scal); [apply nillable_nil|apply reads_ret].
  - apply reads_bind0 with (a := n); [apply arr_len_reads; [apply short_len_not8|apply short_len_limit; assumption]|apply reads_ret].
  - apply reads_bind0 with (a := n); [apply map_len_reads; [apply short_len_not8|apply short_len_limit; assumption]|apply reads_ret].
Qed.

Lemma prims_read : forall l, Forall (fun pk => prim_ok (fst pk) /\
    match fst pk with POpt (Some s) => kind_of s = snd pk | _ => True end) l ->
  reads (read_shapes f64to32 pt (map (fun pk => shape_of (fst pk) (snd pk)) l)) (flat_map (fun pk => prim_bytes (fst pk)) l) (map fst l).
Proof.
  induction l as [|[p k] l IH]; intro H; cbn [map flat_map read_shapes fst snd]; [apply reads_ret|].
  inversion H as [|? ? [O K] H2]; subst. cbn [fst snd] in *.
  eapply reads_bind; [apply prim_reads; assumption|]. eapply reads_bind0; [apply IH; assumption|]. apply reads_ret.
Qed.

(** ** Alternative encodings of single values *)
Lemma alt_reads : forall s v, scal_ok s -> mv_ok v -> alt_mv s v -> reads (read_kind f64to32 pt (kind_of s)) (mv_bytes v) s.
Proof.
  intros s v S O A. destruct s; cbn [alt_mv] in A; try (subst v; apply scal_reads; assumption);
  (destruct A as [f A]; match type of A with _ /\ _ => destruct A as [Sf A] | _ => idtac end; subst v; cbn [mv_ok mv_bytes kind_of read_kind scal_ok] in *).
  1-5: apply reads_bind0 with (a := z); [|apply reads_ret].
  6-10: apply reads_bind0 with (a := n); [rewrite <- (to_N_of_N n) at 2|apply reads_ret].
  11-12: eapply reads_bind0; [|apply reads_ret].
  all: first [apply read_int_reads; assumption | apply read_intN_reads; [assumption|assumption|pow_c; lia]
             |apply read_uint_reads; [assumption|lia]
             |apply read_uintN_reads; [assumption|lia|pow_n; lia]
             |apply (read_string_reads f); tauto | apply (read_bytes_reads f); tauto].
Qed.

Lemma ok_head : forall v, mv_ok v -> v <> MNil -> exists b bs, mv_bytes v = b :: bs /\ b <> 0xc0.
Proof.
  intros v O N. destruct v as [|b|f z|b|b|f x|f x|f l|f l|f i x]; cbn [mv_ok mv_bytes] in *; [congruence|..].
  - destruct b; eexists; eexists; split; try reflexivity; discriminate.
  - destruct (int_bytes_head f z O) as (b & bs & E & _ & D). eauto.
  - eexists; eexists; split; [reflexivity|discriminate].
  - eexists; eexists; split; [reflexivity|discriminate].
  - destruct O as [L _]. destruct f; cbn [str_head app len_limit] in *; eexists; eexists; (split; [reflexivity|]); lia.
  - destruct O as (D & L & _). destruct f; [congruence|..]; cbn [bin_head app]; eexists; eexists; (split; [reflexivity|]); lia.
  - destruct O as (D & L & _). destruct f; [|congruence|..]; cbn [arr_head app len_limit] in *; eexists; eexists; (split; [reflexivity|]); lia.
  - destruct O as (D & L & _). destruct f; [|congruence|..]; cbn [map_head app len_limit] in *; eexists; eexists; (split; [reflexivity|]); lia.
  - destruct O as (I & W & L). destruct f; cbn [ext_head].
    + destruct L as [L|[L|[L|[L|[L|[]]]]]]; rewrite <- L; cbn [app]; eexists; eexists; (split; [reflexivity|]); discriminate.
    + cbn [app]. eexists; eexists; (split; [reflexivity|]); discriminate.
    + cbn [app]. eexists; eexists; (split; [reflexivity|]); discriminate.
    + cbn [app]. eexists; eexists; (split; [reflexivity|]); discriminate.
Qed.
Lemma alt_not_nil : forall s v, alt_mv s v -> v <> MNil.
Proof. intros s v A ->. destruct s; cbn [alt_mv scal_mv] in A; try discriminate A; destruct A as [f A]; first [discriminate A|destruct A as [_ A]; discriminate A]. Qed.

Lemma list_reads : forall k l vs, Forall2 (fun s v => kind_of s = k /\ scal_ok s /\ mv_ok v /\ alt_mv s v) l vs -> forall acc,
  reads (times (len vs) (fun acc => let! v := read_kind f64to32 pt k in rret (acc ++ [v])) acc) (flat_map mv_bytes vs) (acc ++ l).
Proof.
  intros k l vs H; induction H as [|s v l vs (K & S & O & A) H IH]; intro acc.
  - rewrite app_nil_r. apply reads_ret.
  - rewrite len_cons. cbn [flat_map]. intros pre rest F. rewrite times_succ. rewrite <- app_assoc in F. rewrite <- app_assoc.
    assert (X : reads (let! v := read_kind f64to32 pt k in rret (acc ++ [v])) (mv_bytes v) (acc ++ [s])).
    { subst k. apply reads_bind0 with (a := s); [apply alt_reads; assumption|apply reads_ret]. }
    rewrite X by assumption. rewrite (IH (acc ++ [s])) by (apply -> fits_move; assumption).
    rewrite <- !app_assoc. reflexivity.
Qed.

Lemma not_nil_reads : forall {B} b bs (m : M B) x, b <> 0xc0 -> reads m (b :: bs) x ->
  reads (let! isNil := IsNextNil in if isNil then rret x else m) (b :: bs) x.
Proof.
  intros B b bs m x D H pre rest F. unfold IsNextNil, rbind at 1 2. cbn [app] in *.
  rewrite peek8_at by assumption. unfold FormatNil. destruct (N.eqb_spec b 0xc0); [congruence|].
  unfold rret at 1. apply (H pre rest F).
Qed.

Lemma not_nil_reads' : forall {B} b bs (m : M B) x y, b <> 0xc0 -> reads m (b :: bs) x ->
  reads (let! isNil := IsNextNil in if isNil then rret y else m) (b :: bs) x.
Proof.
  intros B b bs m x y D H pre rest F. unfold IsNextNil, rbind at 1 2. cbn [app] in *.
  rewrite peek8_at by assumption. unfold FormatNil. destruct (N.eqb_spec b 0xc0); [congruence|].
  unfold rret at 1. apply (H pre rest F).
Qed.

Lemma field_reads : forall k v bs, field_enc k v bs -> reads (read_field f64to32 pt k) bs v.
Proof.
  intros k v bs H. destruct H as [s w S O A|k|s w S O A|k|k f l vs D L H]; cbn [read_field].
  - apply reads_bind0 with (a := s); [apply alt_reads; assumption|apply reads_ret].
  - apply reads_bind0 with (a := @None scal); [apply nillable_nil|apply reads_ret].
  - apply reads_bind0 with (a := Some s); [|apply reads_ret].
    destruct (ok_head w O (alt_not_nil s w A)) as (b & bs & E & N). rewrite E. apply nillable_some; [assumption|].
    rewrite <- E. apply alt_reads; assumption.
  - apply reads_bind0 with (a := true); [apply nil_reads|apply reads_ret].
  - assert (X : reads (let! n := ReadArraySize in
         let! l := times n (fun acc => let! v := read_kind f64to32 pt k in rret (acc ++ [v])) [] in
         rret (VArr (Some l))) (mv_bytes (MArr f vs)) (VArr (Some l))).
    { cbn [mv_bytes]. eapply reads_bind; [apply arr_len_reads; assumption|].
      apply reads_bind0 with (a := l); [|apply reads_ret]. apply (list_reads k l vs H []). }
    destruct f; [|congruence|..]; cbn [mv_bytes arr_head app len_limit] in *; (apply not_nil_reads'; [lia|exact X]).
Qed.

Lemma find_in : forall sc n k, NoDup (map fst sc) -> In (n, k) sc -> find_field sc n = Some k.
Proof.
  induction sc as [|[m j] sc IH]; intros n k ND H; [contradiction|]. cbn [find_field map fst] in *.
  inversion ND as [|? ? N1 N2]; subst. destruct H as [H|H].
  - injection H as -> ->. rewrite (proj2 (bytes_eqb n n) eq_refl). reflexivity.
  - destruct (bytes_equal n m) eqn:E.
    + apply bytes_eqb in E. subst m. destruct N1. apply (in_map fst _ _ H).
    + apply IH; assumption.
Qed.
Lemma find_none : forall sc n, ~ In n (map fst sc) -> find_field sc n = None.
Proof.
  induction sc as [|[m j] sc IH]; intros n H; [reflexivity|]. cbn [find_field map fst In] in *.
  destruct (bytes_equal n m) eqn:E; [apply bytes_eqb in E; subst; tauto|]. apply IH. tauto.
Qed.

Definition put (e : env) (x : bytes * option fval) : env := match snd x with Some v => set_field e (fst x) v | None => e end.
Lemma put_assign : forall e e' x n, (forall n, e n = e' n) -> put e x n = assign e' x n.
Proof.
  intros e e' [m [v|]] n H; unfold put, assign; cbn [fst snd]; [|apply H]. unfold set_field. rewrite bytes_eqb_dec.
  destruct (list_eq_dec N.eq_dec n m); [reflexivity|apply H].
Qed.
Lemma fold_put : forall l e e', (forall n, e n = e' n) -> forall n, fold_left put l e n = fold_left assign l e' n.
Proof.
  induction l as [|x l IH]; intros e e' H n; cbn [fold_left]; [apply H|]. apply IH. intro m. apply put_assign, H.
Qed.

Lemma entry_reads : forall sc fuel x bs, NoDup (map fst sc) -> (length bs <= fuel)%nat -> entry_enc sc x bs -> forall e,
  reads (struct_body f64to32 pt sc fuel e) bs (put e x).
Proof.
  intros sc fuel x bs ND F H e. unfold struct_body. destruct H as [f n k v bs L I E|f n w L I O S].
  - eapply reads_bind; [apply read_string_reads; assumption|]. rewrite (find_in sc n k) by assumption.
    eapply reads_bind0; [apply field_reads; eassumption|]. apply reads_ret.
  - eapply reads_bind; [apply read_string_reads; assumption|]. rewrite (find_none sc n) by assumption.
    apply reads_bind0 with (a := tt); [|apply reads_ret]. apply skip_tree; [assumption..|].
    pose proof (mv_depth_le w O). rewrite app_length in F. lia.
Qed.

Lemma entries_read : forall sc fuel, NoDup (map fst sc) -> forall l bss, Forall2 (entry_enc sc) l bss ->
  (length (concat bss) <= fuel)%nat -> forall e,
  reads (times (len l) (struct_body f64to32 pt sc fuel) e) (concat bss) (fold_left put l e).
Proof.
  intros sc fuel ND l bss H; induction H as [|x bs l bss H1 H2 IH]; intros F e.
  - apply reads_ret.
  - cbn [concat] in *. rewrite app_length in F. rewrite len_cons. cbn [fold_left].
    intros pre rest Ft. rewrite times_succ. rewrite <- app_assoc in Ft. rewrite <- app_assoc.
    rewrite (entry_reads sc fuel x bs ND ltac:(lia) H1 e) by assumption.
    rewrite (IH ltac:(lia) (put e x)) by (apply -> fits_move; assumption).
    rewrite <- !app_assoc. reflexivity.
Qed.

Lemma record_reads : forall sc fuel f l bss e, NoDup (map fst sc) -> f <> Len8 -> len l < len_limit 16 f ->
  Forall2 (entry_enc sc) l bss -> (length (concat bss) <= fuel)%nat ->
  reads (struct_decode f64to32 pt sc fuel e) (map_head f (len l) ++ concat bss) (fold_left put l e).
Proof.
  intros sc fuel f l bss e ND D L H F. unfold struct_decode.
  eapply reads_bind; [apply map_len_reads; assumption|]. apply entries_read; assumption.
Qed.

Lemma record_consumes : forall sc fuel f l bss e, NoDup (map fst sc) -> f <> Len8 -> len l < len_limit 16 f ->
  Forall2 (entry_enc sc) l bss -> (length (concat bss) <= fuel)%nat ->
  exists e', consumes (struct_decode f64to32 pt sc fuel e) (map_head f (len l) ++ concat bss) e' /\
    forall n, e' n = fold_left assign l e n.
Proof.
  intros sc fuel f l bss e ND D L H F. exists (fold_left put l e). split.
  - apply reads_consumes, record_reads; assumption.
  - apply fold_put. reflexivity.
Qed.

(** With distinct names every field of the input is there, and nothing else changed. *)
Lemma assign_other : forall l e n, ~ In n (map fst l) -> fold_left assign l e n = e n.
Proof.
  induction l as [|[m o] l IH]; intros e n H; [reflexivity|]. cbn [fold_left map fst In] in *. rewrite IH by tauto.
  unfold assign; cbn [fst snd]. destruct o; [|reflexivity]. destruct (list_eq_dec N.eq_dec n m); [subst; tauto|reflexivity].
Qed.
Lemma assign_in : forall l e n v, NoDup (map fst l) -> In (n, Some v) l -> fold_left assign l e n = v.
Proof.
  induction l as [|[m o] l IH]; intros e n v ND H; [contradiction|]. cbn [fold_left map fst] in *.
  inversion ND as [|? ? N1 N2]; subst. destruct H as [H|H].
  - injection H as -> ->. rewrite assign_other by assumption. unfold assign; cbn [fst snd].
    destruct (list_eq_dec N.eq_dec n n); [reflexivity|congruence].
  - apply IH; assumption.
Qed.

(** ** Transforms *)
Lemma transform_bytes : forall s, scal_ok s -> len (mv_bytes (scal_mv s)) + scal_excess s < 2^32 ->
  transform_encode s = Ret (mv_bytes (scal_mv s) ++ repeat 0 (N.to_nat (scal_excess s))).
Proof.
  intros s O B. unfold transform_encode.
  assert (E1 : calls_bytes [inl (PVal s)] = mv_bytes (scal_mv s)) by (unfold calls_bytes; cbn [flat_map prim_bytes]; apply app_nil_r).
  assert (E2 : calls_excess [inl (PVal s)] = scal_excess s) by (unfold calls_excess, sum; cbn [map fold_right prim_excess]; lia).
  rewrite <- E1, <- E2. apply to_bytes_result.
  - repeat constructor.
  - cbn; tauto.
  - cbn; tauto.
  - rewrite E1, E2. assumption.
Qed.

Lemma transform_round : forall s, scal_ok s -> len (mv_bytes (scal_mv s)) + scal_excess s < 2^32 ->
  exists data, transform_encode s = Ret data /\ transform_decode f64to32 pt (kind_of s) data = Ret s.
Proof.
  intros s O B. eexists. split; [apply transform_bytes; assumption|]. unfold transform_decode.
  pose proof (scal_reads f64to32 pt s O [] (repeat 0 (N.to_nat (scal_excess s)))) as X.
  unfold at_ in X. cbn [app] in X. change (len (@nil N)) with 0 in X. unfold new_dr. rewrite X; [reflexivity|].
  unfold fits. rewrite len_app, len_repeat. change (len (@nil N)) with 0. lia.
Qed.

Lemma time_round : forall fmt t, let s := SStr (fmt t) in scal_ok s -> len (mv_bytes (scal_mv s)) < 2^32 ->
  exists data, time_encode fmt t = Ret data /\
    time_decode pt data = match pt (fmt t) with Some t' => Ret t' | None => Fail ReadErr end.
Proof.
  intros fmt t s O B. eexists. split; [apply transform_bytes; [exact O|change (scal_excess (SStr (fmt t))) with 0; rewrite N.add_0_r; exact B]|].
  unfold time_decode. change (N.to_nat (scal_excess (SStr (fmt t)))) with 0%nat. cbn [repeat]. rewrite app_nil_r.
  pose proof (read_string_reads (short_len 32 true (len (fmt t))) (fmt t)) as X.
  assert (L : len (fmt t) < len_limit 32 (short_len 32 true (len (fmt t)))) by (apply short_len_limit; apply O).
  specialize (X L [] []). unfold at_ in X. cbn [app] in X. rewrite app_nil_r in X. change (len (@nil N)) with 0 in X.
  unfold new_dr. cbn [s scal_mv] in *. rewrite X; [reflexivity|]. unfold fits. change (len (@nil N)) with 0. rewrite N.add_0_l. exact B.
Qed.

(** ** Records through the writer *)
Lemma field_calls_enc : forall k v, field_ok k v -> field_enc k v (calls_bytes (field_calls v)) /\ calls_ok (field_calls v).
Proof.
  intros k v H.
  assert (Alt : forall s, alt_mv s (scal_mv s)).
  { intro s. destruct s; cbn [alt_mv scal_mv]; try reflexivity; eexists; try reflexivity.
    all: split; [|reflexivity]; unfold short_signed; repeat match goal with |- context [if ?b then _ else _] => destruct b end; exact I. }
  destruct k as [k|k|k], v as [s|[s|]|[l|]]; cbn [field_ok] in H; try contradiction; cbn [field_calls].
  - destruct H as [<- O]. unfold calls_bytes; cbn [flat_map prim_bytes]. rewrite app_nil_r. split.
    + apply enc_one; [assumption|apply scal_mv_ok; assumption|apply Alt].
    + cbn; tauto.
  - destruct H as [<- O]. unfold calls_bytes; cbn [flat_map prim_bytes]. rewrite app_nil_r. split.
    + apply enc_some; [assumption|apply scal_mv_ok; assumption|apply Alt].
    + cbn; tauto.
  - split; [apply enc_none|cbn; tauto].
  - destruct H as [L H]. rewrite u32_small by assumption. split.
    + assert (E : calls_bytes (inl (PArr (len l)) :: map (fun s => inl (PVal s)) l) = mv_bytes (MArr (short_len 16 false (len l)) (map scal_mv l))).
      { unfold calls_bytes. cbn [flat_map prim_bytes mv_bytes]. rewrite len_map. f_equal. clear.
        induction l as [|x l IH]; [reflexivity|]. cbn [map flat_map prim_bytes]. rewrite IH. reflexivity. }
      rewrite E. apply enc_list; [apply short_len_not8|rewrite len_map; apply short_len_limit; assumption|].
      clear E L. induction H as [|s l [K O] H IH]; cbn [map]; constructor; [|assumption].
      repeat split; [assumption|assumption|apply scal_mv_ok; assumption|apply Alt].
    + cbn [calls_ok all prim_ok]. split; [assumption|]. clear L. induction H as [|s l [K O] H IH]; cbn [map all]; [exact I|]. split; [exact O|exact IH].
  - split; [apply enc_nolist|cbn; tauto].
Qed.

Lemma calls_bytes_app : forall a b, calls_bytes (a ++ b) = calls_bytes a ++ calls_bytes b.
Proof. intros. unfold calls_bytes. apply flat_map_app. Qed.
Lemma calls_ok_app : forall a b, calls_ok a -> calls_ok b -> calls_ok (a ++ b).
Proof. intros a b. unfold calls_ok. rewrite !all_Forall. intros. apply Forall_app; split; assumption. Qed.

Lemma struct_calls_spec : forall sc e, schema_ok sc -> record_ok sc e ->
  calls_ok (struct_calls sc e) /\
  exists bss, calls_bytes (struct_calls sc e) = map_head (short_len 16 false (len sc)) (len sc) ++ concat bss /\
    Forall2 (entry_enc sc) (map (fun f => (fst f, Some (e (fst f)))) sc) bss.
Proof.
  intros sc e (ND & L & N) R. unfold struct_calls.
  assert (X : forall sub, incl sub sc -> calls_ok (flat_map (fun f => inl (PVal (SStr (fst f))) :: field_calls (e (fst f))) sub) /\
    exists bss, calls_bytes (flat_map (fun f => inl (PVal (SStr (fst f))) :: field_calls (e (fst f))) sub) = concat bss /\
    Forall2 (entry_enc sc) (map (fun f => (fst f, Some (e (fst f)))) sub) bss).
  { induction sub as [|[n k] sub IH]; intro I.
    - split; [exact Logic.I|]. exists []. split; [reflexivity|constructor].
    - destruct IH as [O (bss & E & F)]; [intros x Hx; apply I; right; assumption|].
      assert (Hn : In (n, k) sc) by (apply I; left; reflexivity).
      unfold record_ok in R. rewrite Forall_forall in R, N. specialize (R _ Hn). destruct (N _ Hn) as [N1 N2]. cbn [fst snd] in R, N1, N2.
      destruct (field_calls_enc k (e n) R) as [FE FO].
      cbn [flat_map fst]. split.
      + apply (calls_ok_app [inl (PVal (SStr n))]); [cbn; tauto|]. apply calls_ok_app; assumption.
      + exists ((mv_bytes (scal_mv (SStr n)) ++ calls_bytes (field_calls (e n))) :: bss). split.
        * change (inl (PVal (SStr n)) :: field_calls (e n)) with ([inl (PVal (SStr n))] ++ field_calls (e n)).
          rewrite !calls_bytes_app, E. cbn [concat]. f_equal. unfold calls_bytes at 1. cbn [flat_map prim_bytes]. rewrite app_nil_r. reflexivity.
        * cbn [map]. constructor; [|assumption]. apply (known sc _ n k); [apply short_len_limit; assumption|assumption|assumption]. }
  destruct (X sc (incl_refl sc)) as [O (bss & E & F)]. split.
  - apply (calls_ok_app [inl (PMap (len sc))]); [cbn; tauto|assumption].
  - exists bss. split; [|assumption].
    change (inl (PMap (len sc)) :: ?x) with ([inl (PMap (len sc))] ++ x). rewrite <- E.
    unfold calls_bytes. cbn [flat_map prim_bytes]. reflexivity.
Qed.

Lemma fold_record : forall (sc : schema) e e0 sub, NoDup (map fst sc) -> incl sub sc -> NoDup (map fst sub) ->
  forall n, In n (map fst sub) -> fold_left put (map (fun f => (fst f, Some (e (fst f)))) sub) e0 n = e n.
Proof.
  intros sc e e0 sub ND I NDs n H. rewrite (fold_put _ e0 e0) by reflexivity.
  apply assign_in.
  - rewrite map_map. cbn [fst]. exact NDs.
  - apply in_map_iff in H as (f & <- & Hf). apply in_map_iff. exists f. split; [reflexivity|assumption].
Qed.

Lemma struct_round : forall sc e e0 fuel, schema_ok sc -> record_ok sc e ->
  (length (calls_bytes (struct_calls sc e)) <= fuel)%nat ->
  exists e', reads (struct_decode f64to32 pt sc fuel e0) (calls_bytes (struct_calls sc e)) e' /\ same_record sc e' e.
Proof.
  intros sc e e0 fuel S R F. destruct (struct_calls_spec sc e S R) as [_ (bss & E & H)]. destruct S as (ND & L & N).
  exists (fold_left put (map (fun f => (fst f, Some (e (fst f)))) sc) e0). split.
  - rewrite E. replace (len sc) with (len (map (fun f => (fst f, Some (e (fst f)))) sc)) by apply len_map.
    apply record_reads; [assumption|apply short_len_not8|apply short_len_limit; rewrite len_map; assumption|assumption|].
    rewrite E, app_length in F. lia.
  - intros n Hn. apply (fold_record sc); [assumption|apply incl_refl|assumption|assumption].
Qed.

Lemma same_calls_refl : forall l, same_calls l l.
Proof. induction l as [|[p|v] l IH]; constructor; try assumption; constructor; constructor. Qed.

Lemma codec_round : forall sc e e0 fuel, let calls := struct_calls sc e in schema_ok sc -> record_ok sc e ->
  len (calls_bytes calls) + calls_excess calls < 2^32 -> (length (calls_bytes calls) <= fuel)%nat ->
  exists data e', codec_encode sc e = Ret data /\ codec_decode f64to32 pt sc fuel e0 data = Ret e' /\ same_record sc e' e.
Proof.
  intros sc e e0 fuel calls S R B F. destruct (struct_calls_spec sc e S R) as [O _].
  destruct (struct_round sc e e0 fuel S R F) as (e' & X & Sm).
  eexists. exists e'. split; [apply to_bytes_result; [apply same_calls_refl|assumption|assumption|assumption]|]. split; [|assumption].
  unfold codec_decode. specialize (X [] (repeat 0 (N.to_nat (calls_excess calls)))). unfold at_ in X. cbn [app] in X.
  change (len (@nil N)) with 0 in X. unfold new_dr. fold calls in X |- *. rewrite X; [reflexivity|].
  unfold fits. rewrite len_app, len_repeat. change (len (@nil N)) with 0. lia.
Qed.

Definition item sc fuel e0 : M (option env) := fun d =>
    match struct_decode f64to32 pt sc fuel e0 d with
    | Ret (e, d') => Ret (Some e, d')
    | Fail (OutOfFuel, d') => Fail (OutOfFuel, d')
    | Fail (_, d') => Ret (None, d')
    | Panic => Panic
    end.

Lemma items_read : forall sc fuel e0 l, schema_ok sc -> Forall (record_ok sc) l ->
  (length (calls_bytes (flat_map (struct_calls sc) l)) <= fuel)%nat ->
  exists l', Forall2 (fun e o => exists e', o = Some e' /\ same_record sc e' e) l l' /\ forall acc,
  reads (times (len l) (fun acc => let! v := item sc fuel e0 in rret (acc ++ [v])) acc) (calls_bytes (flat_map (struct_calls sc) l)) (acc ++ l').
Proof.
  intros sc fuel e0 l S H; induction H as [|e l R H IH]; intro F.
  - exists []. split; [constructor|]. intro acc. rewrite app_nil_r. apply reads_ret.
  - cbn [flat_map] in *. rewrite calls_bytes_app, app_length in F. destruct (IH ltac:(lia)) as (l' & F2 & X).
    destruct (struct_round sc e e0 fuel S R ltac:(lia)) as (e' & Y & Sm).
    exists (Some e' :: l'). split; [constructor; [eexists; split; [reflexivity|assumption]|assumption]|].
    intros acc pre rest Ft. rewrite len_cons, times_succ. rewrite calls_bytes_app in *. rewrite <- app_assoc in Ft. rewrite <- app_assoc.
    assert (Z : reads (let! v := item sc fuel e0 in rret (acc ++ [v])) (calls_bytes (struct_calls sc e)) (acc ++ [Some e'])).
    { apply reads_bind0 with (a := Some e'); [|apply reads_ret]. intros p r Fp. unfold item. rewrite Y by assumption. reflexivity. }
    rewrite Z by assumption. rewrite X by (apply -> fits_move; assumption). rewrite <- !app_assoc. reflexivity.
Qed.

Lemma slice_ok : forall sc l, schema_ok sc -> Forall (record_ok sc) l -> calls_ok (flat_map (struct_calls sc) l).
Proof.
  intros sc l S H; induction H as [|e l R H IH]; cbn [flat_map]; [exact I|].
  apply calls_ok_app; [apply struct_calls_spec; assumption|assumption].
Qed.

Lemma slice_round : forall sc l e0 fuel, let calls := slice_calls sc l in schema_ok sc -> Forall (record_ok sc) l -> len l < 2^32 ->
  len (calls_bytes calls) + calls_excess calls < 2^32 -> (length (calls_bytes calls) <= fuel)%nat ->
  exists data l', slice_encode sc l = Ret data /\ slice_decode f64to32 pt sc fuel e0 data = Ret l' /\
    Forall2 (fun e o => exists e', o = Some e' /\ same_record sc e' e) l l'.
Proof.
  intros sc l e0 fuel calls S R Ll B F.
  assert (E : calls = [inl (PArr (len l))] ++ flat_map (struct_calls sc) l) by (unfold calls, slice_calls; rewrite u32_small by assumption; reflexivity).
  assert (O : calls_ok calls) by (rewrite E; apply calls_ok_app; [cbn; tauto|apply slice_ok; assumption]).
  assert (F' : (length (calls_bytes (flat_map (struct_calls sc) l)) <= fuel)%nat).
  { rewrite E, calls_bytes_app, app_length in F. lia. }
  destruct (items_read sc fuel e0 l S R F') as (l' & F2 & X).
  eexists. exists l'. split; [apply to_bytes_result; [apply same_calls_refl|assumption|assumption|assumption]|]. split; [|assumption].
  unfold slice_decode. fold (item sc fuel e0).
  assert (Y : reads (let! n := ReadArraySize in times n (fun acc => let! v := item sc fuel e0 in rret (acc ++ [v])) [])
    (calls_bytes calls) l').
  { rewrite E, calls_bytes_app. unfold calls_bytes at 1. cbn [flat_map prim_bytes]. rewrite app_nil_r.
    eapply reads_bind; [apply arr_len_reads; [apply short_len_not8|apply short_len_limit; assumption]|]. apply (X []). }
  specialize (Y [] (repeat 0 (N.to_nat (calls_excess calls)))). unfold at_ in Y. cbn [app] in Y.
  change (len (@nil N)) with 0 in Y. unfold rbind in Y at 1. fold calls. unfold new_dr.
  assert (Ft : fits [] (calls_bytes calls ++ repeat 0 (N.to_nat (calls_excess calls)))).
  { unfold fits. rewrite len_app, len_repeat. change (len (@nil N)) with 0. lia. }
  specialize (Y Ft). destruct (ReadArraySize _) as [[n d]|?|]; [|discriminate Y|discriminate Y].
  rewrite Y. reflexivity.
Qed.
End Env.
