(** Statements of the MessagePack properties in terms of the specification only. *)
From Coq Require Import List NArith ZArith Lia Bool ZifyBool ZifyNat ZifyN.
From Verif Require Import Base BaseLemmas OperationsModel MsgpackModel MsgpackSpec MsgpackClient MsgpackIOProofs MsgpackProofs
  MsgpackReadProofs MsgpackSizeProofs MsgpackTreeProofs MsgpackHostileProofs TransformModel TransformSpec TransformProofs.
Import ListNotations.
Open Scope N_scope.
Ltac Zify.zify_post_hook ::= Z.div_mod_to_equations.

Lemma writes_produces : forall w bs, writes w bs -> produces w bs.
Proof.
  intros w bs H pre old post L B. specialize (H pre (old ++ post)). unfold fits, at_ in H.
  rewrite len_app in B. specialize (H B). rewrite H.
  - do 2 f_equal; [|rewrite len_app; reflexivity]. rewrite <- app_assoc. do 2 f_equal. rewrite <- L.
    rewrite skipn_app, skipn_all, Nat.sub_diag. reflexivity.
  - rewrite len_app. unfold len. lia.
Qed.

Lemma scal_round : forall f64to32 pt s, scal_ok s ->
  produces (enc_scal s) (mv_bytes (scal_mv s)) /\ consumes (read_kind f64to32 pt (kind_of s)) (mv_bytes (scal_mv s)) s.
Proof. intros. split; [apply writes_produces, scal_writes; assumption|apply reads_consumes, scal_reads; assumption]. Qed.

Lemma prims_round : forall f64to32 pt l, Forall (fun pk => prim_ok (fst pk) /\
    match fst pk with POpt (Some s) => kind_of s = snd pk | _ => True end) l ->
  produces (enc_calls (map (fun pk => inl (fst pk)) l)) (flat_map (fun pk => prim_bytes (fst pk)) l) /\
  consumes (read_shapes f64to32 pt (map (fun pk => shape_of (fst pk) (snd pk)) l)) (flat_map (fun pk => prim_bytes (fst pk)) l) (map fst l).
Proof.
  intros f64to32 pt l H. split; [|apply reads_consumes, prims_read; assumption].
  apply writes_produces. replace (flat_map (fun pk => prim_bytes (fst pk)) l) with (calls_bytes (map (fun pk => inl (fst pk)) l)).
  - apply calls_writes. unfold calls_ok. rewrite all_Forall, Forall_map. rewrite Forall_forall in *. intros x Hx. apply (H x Hx).
  - unfold calls_bytes. clear. induction l as [|[p k] l IH]; [reflexivity|]. cbn [map flat_map fst]. rewrite IH. reflexivity.
Qed.

Lemma produces_inj : forall w bs bs', produces w bs -> produces w bs' -> len bs < 2^32 -> length bs = length bs' -> bs = bs'.
Proof.
  intros w bs bs' H H' B L. specialize (H [] bs [] eq_refl). specialize (H' [] bs []).
  cbn [app] in *. rewrite !app_nil_r in *. specialize (H B). specialize (H' L B). congruence.
Qed.

(** ** Shortest integers *)
Lemma int_bytes_len : forall f z, len (int_bytes f z) = len (int_tag f) + N.of_nat (int_width f).
Proof. intros. unfold int_bytes. rewrite len_app, be_len. reflexivity. Qed.
Lemma shortest_signed : forall z f, signed_fmt f -> int_range f z -> len (int_bytes (short_signed z) z) <= len (int_bytes f z).
Proof.
  intros z f S R. rewrite !int_bytes_len. unfold short_signed.
  destruct f; cbn [signed_fmt] in S; try contradiction; cbn [int_range] in R; pow_c;
  repeat match goal with |- context [if ?b then _ else _] => destruct b eqn:? end; cbn; lia.
Qed.
Lemma shortest_unsigned : forall n f, ~ (signed_fmt f /\ f <> FixPos) -> int_range f (Z.of_N n) ->
  len (int_bytes (short_unsigned n) (Z.of_N n)) <= len (int_bytes f (Z.of_N n)).
Proof.
  intros n f S R. rewrite !int_bytes_len. unfold short_unsigned. pow_n.
  destruct f; cbn [signed_fmt] in S; try (destruct S; split; [exact I|discriminate]); cbn [int_range] in R; pow_c;
  repeat match goal with |- context [if ?b then _ else _] => destruct b eqn:? end; cbn; lia.
Qed.

Lemma cross_iff : forall n, n < 2^63 ->
  (mv_bytes (scal_mv (SI64 (Z.of_N n))) = mv_bytes (scal_mv (SU64 n)) <-> n < 128).
Proof.
  intros n B. cbn [scal_mv mv_bytes]. split.
  - intro E. destruct (N.lt_ge_cases n 128) as [C|C]; [assumption|exfalso].
    assert (H1 : exists r, int_bytes (short_signed (Z.of_N n)) (Z.of_N n) = 209 :: r \/
      int_bytes (short_signed (Z.of_N n)) (Z.of_N n) = 210 :: r \/ int_bytes (short_signed (Z.of_N n)) (Z.of_N n) = 211 :: r).
    { unfold short_signed. pow_c. pow_n.
      repeat match goal with |- context [if ?b then _ else _] => destruct b eqn:? end; try lia; eexists; cbn [int_bytes int_tag app]; eauto. }
    assert (H2 : exists t r, int_bytes (short_unsigned n) (Z.of_N n) = t :: r /\ 204 <= t <= 207).
    { unfold short_unsigned. pow_n.
      repeat match goal with |- context [if ?b then _ else _] => destruct b eqn:? end; try lia;
      eexists; eexists; (split; [reflexivity|]); lia. }
    destruct H1 as (r & [H1|[H1|H1]]), H2 as (t & r' & H2 & T); rewrite H1, H2 in E; injection E as E _; lia.
  - intro C. unfold short_signed, short_unsigned. pow_c. pow_n.
    repeat match goal with |- context [if ?b then _ else _] => destruct b eqn:? end; try lia; reflexivity.
Qed.

Lemma uint_reads_int : forall z, (0 <= z < 2^63)%Z -> consumes ReadUint64 (mv_bytes (scal_mv (SI64 z))) (Z.to_N z).
Proof. intros z H. apply reads_consumes, read_uint_reads; [apply short_signed_range; pow_c; lia|lia]. Qed.

Lemma int_reads_uint_iff : forall n rest, n < 2^64 -> let d := new_dr (mv_bytes (scal_mv (SU64 n)) ++ rest) in
  len (d_buf d) < 2^32 -> ((exists z d', ReadInt64 d = Ret (z, d')) <-> n < 128).
Proof.
  intros n rest B d L. split.
  - intros (z & d' & E). destruct (N.lt_ge_cases n 128) as [C|C]; [assumption|exfalso].
    assert (H2 : exists t r, mv_bytes (scal_mv (SU64 n)) = t :: r /\ 204 <= t <= 207).
    { cbn [scal_mv mv_bytes]. unfold short_unsigned. pow_n.
      repeat match goal with |- context [if ?b then _ else _] => destruct b eqn:? end; try lia;
      eexists; eexists; (split; [reflexivity|]); lia. }
    destruct H2 as (t & r & H2 & T). unfold d in *. rewrite H2 in *. unfold ReadInt64, rbind in E.
    pose proof (get1 t [] (r ++ rest)) as G. unfold at_ in G. cbn [app] in G. change (len (@nil N)) with 0 in G.
    unfold new_dr in *. cbn [app d_buf] in *. rewrite G in E by (unfold fits; change (len (@nil N)) with 0; rewrite N.add_0_l; exact L).
    assert (T4 : t = 204 \/ t = 205 \/ t = 206 \/ t = 207) by (clear - T; lia).
    destruct T4 as [-> | [-> | [-> | ->]]]; discriminate E.
  - intro C. assert (R : reads ReadInt64 (mv_bytes (scal_mv (SU64 n))) (Z.of_N n)).
    { cbn [scal_mv mv_bytes]. unfold short_unsigned. destruct (N.ltb_spec n 128); [|lia]. apply read_int_reads; [exact I|cbn; lia]. }
    specialize (R [] rest). unfold at_ in R. cbn [app] in R. change (len (@nil N)) with 0 in R.
    eexists; eexists. unfold d, new_dr. apply R. unfold fits. change (len (@nil N)) with 0. rewrite N.add_0_l. exact L.
Qed.

(** ** Integer readers *)
Lemma split_at : forall d, d_err d = false -> d_off d <= len (d_buf d) ->
  d = at_ (firstn (N.to_nat (d_off d)) (d_buf d)) (skipn (N.to_nat (d_off d)) (d_buf d)).
Proof.
  intros [b o e] E O. cbn in *. subst e. unfold at_. rewrite firstn_skipn. f_equal. unfold len in *. rewrite firstn_length. lia.
Qed.

Lemma read_int_iff : forall lo hi pre tail z d', wf tail -> len pre + len tail < 2^31 ->
  (ReadIntN lo hi (mkDR (pre ++ tail) (len pre) false) = Ret (z, d') <->
   (lo <= z <= hi)%Z /\ exists f rest, signed_fmt f /\ int_range f z /\ tail = int_bytes f z ++ rest /\
   d' = mkDR (pre ++ tail) (len pre + len (int_bytes f z)) false).
Proof.
  intros lo hi pre tail z d' W B. change (2^31) with 2147483648 in B. rewrite read_intN_inv.
  assert (F : fits pre tail) by (unfold fits; change (2^32) with 4294967296; lia).
  assert (Rm : room pre) by (unfold room; change (2^32) with 4294967296; lia).
  split.
  - intros [E R]. split; [assumption|]. destruct (read_int_inv pre tail z d' F Rm W E) as (f & rest & S & I & T & D).
    exists f, rest. repeat split; try assumption. rewrite D, T. unfold at_. rewrite len_app, <- app_assoc. reflexivity.
  - intros (R & f & rest & S & I & T & D). split; [|assumption]. subst d'. subst tail.
    pose proof (read_int_reads f z S I pre rest F) as X. unfold at_ in X. rewrite X. rewrite len_app, <- app_assoc. reflexivity.
Qed.
Lemma read_int64_iff : forall pre tail z d', wf tail -> len pre + len tail < 2^31 ->
  (ReadInt64 (mkDR (pre ++ tail) (len pre) false) = Ret (z, d') <->
   exists f rest, signed_fmt f /\ int_range f z /\ tail = int_bytes f z ++ rest /\
   d' = mkDR (pre ++ tail) (len pre + len (int_bytes f z)) false).
Proof.
  intros pre tail z d' W B. change (2^31) with 2147483648 in B.
  assert (F : fits pre tail) by (unfold fits; change (2^32) with 4294967296; lia).
  assert (Rm : room pre) by (unfold room; change (2^32) with 4294967296; lia).
  split.
  - intros E. destruct (read_int_inv pre tail z d' F Rm W E) as (f & rest & S & I & T & D).
    exists f, rest. repeat split; try assumption. rewrite D, T. unfold at_. rewrite len_app, <- app_assoc. reflexivity.
  - intros (f & rest & S & I & T & D). subst d'. subst tail.
    pose proof (read_int_reads f z S I pre rest F) as X. unfold at_ in X. rewrite X. rewrite len_app, <- app_assoc. reflexivity.
Qed.
Lemma read_uint_iff : forall hi pre tail n d', wf tail -> len pre + len tail < 2^31 ->
  (ReadUintN hi (mkDR (pre ++ tail) (len pre) false) = Ret (n, d') <->
   n <= hi /\ exists f rest, int_range f (Z.of_N n) /\ tail = int_bytes f (Z.of_N n) ++ rest /\
   d' = mkDR (pre ++ tail) (len pre + len (int_bytes f (Z.of_N n))) false).
Proof.
  intros hi pre tail n d' W B. change (2^31) with 2147483648 in B. rewrite read_uintN_inv.
  assert (F : fits pre tail) by (unfold fits; change (2^32) with 4294967296; lia).
  assert (Rm : room pre) by (unfold room; change (2^32) with 4294967296; lia).
  split.
  - intros [E R]. split; [assumption|]. destruct (read_uint_inv pre tail n d' F Rm W E) as (f & rest & I & T & D).
    exists f, rest. repeat split; try assumption. rewrite D, T. unfold at_. rewrite len_app, <- app_assoc. reflexivity.
  - intros (R & f & rest & I & T & D). split; [|assumption]. subst d'. subst tail.
    pose proof (read_uint_reads f (Z.of_N n) I ltac:(lia) pre rest F) as X. unfold at_ in X. rewrite X, to_N_of_N, len_app, <- app_assoc. reflexivity.
Qed.
Lemma read_uint64_iff : forall pre tail n d', wf tail -> len pre + len tail < 2^31 ->
  (ReadUint64 (mkDR (pre ++ tail) (len pre) false) = Ret (n, d') <->
   exists f rest, int_range f (Z.of_N n) /\ tail = int_bytes f (Z.of_N n) ++ rest /\
   d' = mkDR (pre ++ tail) (len pre + len (int_bytes f (Z.of_N n))) false).
Proof.
  intros pre tail n d' W B. change (2^31) with 2147483648 in B.
  assert (F : fits pre tail) by (unfold fits; change (2^32) with 4294967296; lia).
  assert (Rm : room pre) by (unfold room; change (2^32) with 4294967296; lia).
  split.
  - intros E. destruct (read_uint_inv pre tail n d' F Rm W E) as (f & rest & I & T & D).
    exists f, rest. repeat split; try assumption. rewrite D, T. unfold at_. rewrite len_app, <- app_assoc. reflexivity.
  - intros (f & rest & I & T & D). subst d'. subst tail.
    pose proof (read_uint_reads f (Z.of_N n) I ltac:(lia) pre rest F) as X. unfold at_ in X. rewrite X, to_N_of_N, len_app, <- app_assoc. reflexivity.
Qed.

(** ** Sizing *)
Lemma exact_iff : forall ck sized calls, same_calls sized calls -> calls_ok sized -> calls_ok calls ->
  len (calls_bytes calls) + calls_excess calls < 2^32 ->
  (to_bytes ck sized calls = Ret (calls_bytes calls) <-> calls_excess calls = 0).
Proof.
  intros ck sized calls S O1 O2 B. rewrite to_bytes_result by assumption. split; intro H.
  - injection H as H. apply (f_equal (@length N)) in H. rewrite app_length, repeat_length in H. lia.
  - rewrite H. cbn [N.to_nat repeat]. rewrite app_nil_r. reflexivity.
Qed.

(** ** Skip and ReadAny *)
Lemma skip_consumes : forall v fuel, mv_ok v -> skippable v -> (length (mv_bytes v) <= fuel)%nat -> consumes (Skip fuel) (mv_bytes v) tt.
Proof. intros v fuel O S F. apply reads_consumes, skip_tree; [assumption..|]. pose proof (mv_depth_le v O). lia. Qed.

Lemma skip_written : forall s fuel, scal_ok s -> (forall t, s = STime t -> len (time_data t) <> 12) ->
  (length (mv_bytes (scal_mv s)) <= fuel)%nat -> consumes (Skip fuel) (mv_bytes (scal_mv s)) tt.
Proof.
  intros s fuel O T F. apply skip_consumes; [apply scal_mv_ok; assumption| |assumption].
  destruct s; cbn [scal_mv skippable]; try exact I. specialize (T t eq_refl).
  destruct (N.eqb_spec (len (time_data t)) 12); [contradiction|]. split; [reflexivity|].
  destruct (time_data_len t) as [E|[E|E]]; rewrite E; lia.
Qed.
Lemma skip_time12 : forall t fuel pre rest, len (time_data t) = 12 -> let bs := mv_bytes (scal_mv (STime t)) in
  len pre + len (bs ++ rest) < 2^32 ->
  Skip (S fuel) (mkDR (pre ++ bs ++ rest) (len pre) false) = Fail (ReadErr, mkDR (pre ++ bs ++ rest) (len pre + 1) false).
Proof.
  intros t fuel pre rest L bs B. unfold bs in *. cbn [scal_mv mv_bytes] in *. rewrite L in *. change (12 =? 12) with true in *.
  cbv iota in *. cbn [ext_head app] in *.
  match goal with |- Skip _ (mkDR (pre ++ ?t :: ?r) _ _) = _ => pose proof (skip_ext fuel t pre r) as X end.
  unfold at_ in X. rewrite X; [|cbn; tauto|exact B]. rewrite len_app, <- app_assoc. reflexivity.
Qed.

Lemma any_round : forall v fuel, any_ok v -> clean v -> (length (any_bytes v) <= fuel)%nat ->
  produces (enc_any v) (any_bytes v) /\ exists w, consumes (ReadAny fuel) (any_bytes v) w /\ any_equal v w.
Proof.
  intros v fuel O C F. split; [apply writes_produces, any_writes; assumption|].
  exists (mv_dv (gov_mv v)). split; [|apply gov_equal; assumption].
  rewrite <- gov_mv_bytes in * by assumption. apply reads_consumes, any_tree.
  - apply gov_mv_ok; assumption.
  - apply gov_readable; assumption.
  - pose proof (mv_depth_le (gov_mv v) (gov_mv_ok v O)). lia.
Qed.

(** AnyToBytes, then ReadAny; the two passes may see map entries in different orders. *)
Lemma any_to_bytes_round : forall v v' fuel, same_any v v' -> any_ok v -> any_ok v' -> clean v' ->
  len (any_bytes v') + any_excess v' < 2^32 -> (length (any_bytes v') <= fuel)%nat ->
  exists data w d', to_bytes true [inr v] [inr v'] = Ret data /\ ReadAny fuel (new_dr data) = Ret (w, d') /\ any_equal v' w.
Proof.
  intros v v' fuel S O O' C B F. destruct (any_round v' fuel O' C F) as [_ (w & R & E)].
  assert (X1 : calls_bytes [inr v'] = any_bytes v') by (unfold calls_bytes; cbn [flat_map]; apply app_nil_r).
  assert (X2 : calls_excess [inr v'] = any_excess v') by (unfold calls_excess, sum; cbn [map fold_right]; lia).
  eexists. exists w. eexists. split.
  - apply to_bytes_result; [repeat constructor; assumption|cbn; tauto|cbn; tauto|rewrite X1, X2; assumption].
  - split; [|assumption]. rewrite X1. specialize (R [] (repeat 0 (N.to_nat (calls_excess [inr v'])))).
    cbn [app] in R. apply R. rewrite len_app, len_repeat, X2. change (len (@nil N)) with 0. lia.
Qed.

Lemma any_tree_consumes : forall v fuel, mv_ok v -> readable v -> (length (mv_bytes v) <= fuel)%nat ->
  consumes (ReadAny fuel) (mv_bytes v) (mv_dv v).
Proof. intros v fuel O R F. apply reads_consumes, any_tree; [assumption..|]. pose proof (mv_depth_le v O). lia. Qed.

(** ** Times *)
Lemma time_lens : forall t, time_ok t ->
  (len (time_data t) = 4 <-> (0 <= t_sec t < 2^32)%Z /\ t_nsec t = 0) /\
  (len (time_data t) = 8 <-> (0 <= t_sec t < 2^34)%Z /\ ~ ((t_sec t < 2^32)%Z /\ t_nsec t = 0)) /\
  (len (time_data t) = 12 <-> ~ (0 <= t_sec t < 2^34)%Z).
Proof.
  intros t [H1 H2]. unfold time_data. cbv zeta. pow_c. pow_n. change (2^34)%Z with 17179869184%Z in *.  change (2^32)%Z with 4294967296%Z in *.
  destruct ((0 <=? t_sec t)%Z && (t_sec t <? 4294967296)%Z && (t_nsec t =? 0)) eqn:E1.
  - rewrite be_len. change (N.of_nat 4) with 4. repeat split; intros; try lia.
  - destruct ((0 <=? t_sec t)%Z && (t_sec t <? 17179869184)%Z) eqn:E2.
    + rewrite be_len. change (N.of_nat 8) with 8. repeat split; intros; try lia.
    + rewrite len_app, !be_len. change (N.of_nat 4 + N.of_nat 8) with 12. repeat split; intros; try lia.
Qed.
