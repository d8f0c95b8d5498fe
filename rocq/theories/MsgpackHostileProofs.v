(** The decoder on arbitrary input. *)
From Coq Require Import List NArith ZArith Lia Bool ZifyBool ZifyNat ZifyN.
From Verif Require Import Base BaseLemmas OperationsModel MsgpackModel MsgpackSpec MsgpackClient MsgpackIOProofs MsgpackProofs
  MsgpackReadProofs MsgpackSizeProofs MsgpackTreeProofs.
Import ListNotations.
Open Scope N_scope.
Ltac Zify.zify_post_hook ::= Z.div_mod_to_equations.

Section Hostile.
Variable buf : bytes.
(** Whether panics are tolerated. *)
Variable pan : Prop.
Hypothesis small : len buf < 2^31.
Hypothesis Hwf : wf buf.

Definition live (d : dr) : Prop := d_buf d = buf /\ d_off d <= len buf.
Definition moved (d d' : dr) : Prop := d_buf d' = buf /\ d_off d <= d_off d' /\ d_off d' <= len buf.
Definition safe {A} (m : M A) (P : A -> dr -> dr -> Prop) : Prop := forall d, live d ->
  match m d with
  | Ret (a, d') => moved d d' /\ P a d d'
  | Fail (e, d') => moved d d' /\ e <> OutOfFuel
  | Panic => pan
  end.

Lemma safe_ret : forall {A} (a : A) (P : A -> dr -> dr -> Prop), (forall d, P a d d) -> safe (rret a) P.
Proof. intros A a P H d [L1 L2]. unfold rret. split; [unfold moved; repeat split; (assumption || lia)|apply H]. Qed.
Lemma safe_fail : forall {A} e (P : A -> dr -> dr -> Prop), e <> OutOfFuel -> safe (rfail e) P.
Proof. intros A e P H d [L1 L2]. unfold rfail. split; [unfold moved; repeat split; (assumption || lia)|assumption]. Qed.
Lemma safe_bind : forall {A B} (m : M A) (k : A -> M B) P Q,
  safe m P -> (forall a, (exists d d', P a d d') -> safe (k a) Q) ->
  (forall a b d d' d'', P a d d' -> moved d d' -> moved d' d'' -> Q b d' d'' -> Q b d d'') ->
  safe (rbind m k) Q.
Proof.
  intros A B m k P Q Hm Hk Ht d L. unfold rbind. specialize (Hm d L). destruct (m d) as [[a d']|[e d']|]; [|assumption..].
  destruct Hm as [M1 HP]. assert (L' : live d') by (destruct M1 as (? & ? & ?); split; assumption).
  specialize (Hk a (ex_intro _ d (ex_intro _ d' HP)) d' L'). destruct (k a d') as [[b d'']|[e d'']|]; [| |assumption].
  - destruct Hk as [M2 HQ]. split; [unfold moved in *; intuition lia|]. eapply Ht; eassumption.
  - destruct Hk as [M2 HQ]. split; [unfold moved in *; intuition lia|assumption].
Qed.

Definition ahead {A} (P : A -> Prop) (a : A) (d d' : dr) : Prop := d_off d < d_off d' /\ P a.
Definition val {A} (P : A -> Prop) (a : A) (_ _ : dr) : Prop := P a.

Lemma safe_weaken : forall {A} (m : M A) (P Q : A -> dr -> dr -> Prop), safe m P -> (forall a d d', P a d d' -> Q a d d') -> safe m Q.
Proof. intros A m P Q H X d L. specialize (H d L). destruct (m d) as [[a d']|[e d']|]; [|assumption..]. destruct H; split; auto. Qed.

Lemma safe_seq : forall {A B} (m : M A) (k : A -> M B) (P : A -> Prop) (Q : B -> Prop),
  safe m (val P) -> (forall a, P a -> safe (k a) (val Q)) -> safe (rbind m k) (val Q).
Proof.
  intros A B m k P Q Hm Hk. eapply safe_bind; [exact Hm|intros a (d & d' & HP); apply Hk, HP|].
  intros; assumption.
Qed.

(** First a move forward, then anything. *)
Lemma safe_fwd : forall {A B} (m : M A) (k : A -> M B) (P : A -> Prop) (Q : B -> Prop),
  safe m (ahead P) -> (forall a, P a -> safe (k a) (val Q)) -> safe (rbind m k) (ahead Q).
Proof.
  intros A B m k P Q Hm Hk d L. unfold rbind. specialize (Hm d L). destruct (m d) as [[a d']|[e d']|]; [|assumption..].
  destruct Hm as [M1 [HA HP]]. assert (L' : live d') by (destruct M1 as (? & ? & ?); split; assumption).
  specialize (Hk a HP d' L'). destruct (k a d') as [[b d'']|[e d'']|]; [| |assumption].
  - destruct Hk as [M2 HQ]. unfold moved, val, ahead in *. intuition lia.
  - destruct Hk as [M2 HQ]. split; [unfold moved in *; intuition lia|assumption].
Qed.

Definition tt_ {A} (_ : A) : Prop := True.

(** ** Primitive reads *)
Lemma check_spec : forall n d, live d -> n + len buf < 2^32 ->
  check n d = (true, d) /\ d_off d + n <= len buf /\ u32 (d_off d + n) = d_off d + n \/
  exists d', check n d = (false, d') /\ moved d d' /\ d_off d' = d_off d.
Proof.
  intros n d [L1 L2] B. unfold check. rewrite L1. change (2^31) with 2147483648 in small. change (2^32) with 4294967296 in B.
  destruct (d_err d) eqn:E.
  - right. exists d. repeat split; (assumption || lia || reflexivity).
  - rewrite !u32_small by (change (2^32) with 4294967296; lia).
    destruct (N.ltb_spec (len buf) (d_off d + n)).
    + right. eexists. split; [reflexivity|]. cbn. repeat split; (assumption || lia || reflexivity).
    + left. split; [reflexivity|]. split; [assumption|reflexivity].
Qed.

Lemma live_split : forall d n, live d -> d_off d + n <= len buf ->
  exists pre w post, buf = pre ++ w ++ post /\ len pre = d_off d /\ len w = n /\
    skipn (N.to_nat (d_off d)) buf = w ++ post.
Proof.
  intros d n [L1 L2] B.
  exists (firstn (N.to_nat (d_off d)) buf), (firstn (N.to_nat n) (skipn (N.to_nat (d_off d)) buf)),
    (skipn (N.to_nat n) (skipn (N.to_nat (d_off d)) buf)).
  rewrite (firstn_skipn (N.to_nat n)), firstn_skipn.
  unfold len in *. rewrite !firstn_length, !skipn_length. repeat split; lia.
Qed.

Lemma safe_get : forall w, (w <= 8)%nat -> safe (get w) (fun v d d' => d_off d' = d_off d + N.of_nat w /\
  exists pre x post, buf = pre ++ x ++ post /\ length x = w /\ v = unbe x).
Proof.
  intros w W d L. unfold get. change (2^31) with 2147483648 in small.
  destruct (check_spec (N.of_nat w) d L) as [(-> & B & U)|(d' & -> & M1 & E)].
  - change (2^32) with 4294967296. lia.
  - destruct (live_split d _ L B) as (pre & x & post & S & Lp & Lx & K). destruct L as [L1 L2]. rewrite L1.
    unfold slice_from. destruct (N.leb_spec (d_off d) (len buf)); [|lia]. rewrite K.
    rewrite get_be_app by (unfold len in Lx; lia).
    split.
    + unfold moved, step; cbn [d_buf d_off]. rewrite U. repeat split; (assumption || lia).
    + unfold step; cbn [d_off]. rewrite U. split; [reflexivity|]. exists pre, x, post. unfold len in Lx. repeat split; (assumption || lia).
  - split; [assumption|discriminate].
Qed.

Lemma safe_peek : safe peek8 (fun v d d' => d_off d' = d_off d).
Proof.
  intros d L. unfold peek8. change (2^31) with 2147483648 in small.
  destruct (check_spec 1 d L) as [(-> & B & U)|(d' & -> & M1 & E)].
  - change (2^32) with 4294967296. lia.
  - destruct (live_split d _ L B) as (pre & x & post & S & Lp & Lx & K). destruct L as [L1 L2]. rewrite L1.
    unfold index. destruct (nth_error buf (N.to_nat (d_off d))) eqn:E.
    + split; [|reflexivity]. repeat split; (assumption || lia).
    + apply nth_error_None in E. unfold len in *. lia.
  - split; [assumption|discriminate].
Qed.

Lemma safe_discard : forall n, n + len buf < 2^32 -> safe (discard n) (val tt_).
Proof.
  intros n B d L. unfold discard. destruct (check_spec n d L B) as [(-> & B' & U)|(d' & -> & M1 & E)].
  - destruct L as [L1 L2]. split; [|exact I]. unfold moved, step; cbn [d_buf d_off]. rewrite U. repeat split; (assumption || lia).
  - split; [assumption|discriminate].
Qed.

Lemma safe_ign : forall m, safe m (val tt_) -> safe (ign m) (val tt_).
Proof. intros m H d L. specialize (H d L). unfold ign. destruct (m d) as [[a d']|[e d']|]; [assumption| |assumption]. split; [apply H|exact I]. Qed.

(** With a tolerated panic the length may be anything. *)
Lemma safe_bytes : forall n, n + len buf < 2^32 \/ (pan /\ n < 2^32) -> safe (get_bytes n) (val (fun b => len b = n \/ pan)).
Proof.
  intros n [B|B] d L; unfold get_bytes.
  - destruct (check_spec n d L B) as [(-> & B' & U)|(d' & -> & M1 & E)]; [|split; [assumption|discriminate]].
    destruct L as [L1 L2]. rewrite L1, U.
    destruct (N.leb_spec (d_off d) (d_off d + n)); [|lia]. destruct (N.leb_spec (d_off d + n) (len buf)); [|lia]. cbn [andb].
    split.
    + unfold moved, step; cbn [d_buf d_off]. rewrite U. repeat split; (assumption || lia).
    + unfold val. left. unfold len in *. rewrite firstn_length, skipn_length. lia.
  - destruct B as [B0 B]. unfold check. destruct L as [L1 L2]. rewrite L1.
    destruct (d_err d); [split; [repeat split; (assumption || lia)|discriminate]|].
    destruct (N.ltb _ _); [split; [unfold moved; cbn [d_buf d_off]; repeat split; (assumption || lia || reflexivity)|discriminate]|]. rewrite L1.
    destruct (N.leb_spec (d_off d) (u32 (d_off d + n))); cbn [andb]; [|assumption].
    destruct (N.leb_spec (u32 (d_off d + n)) (len buf)); [|assumption].
    split; [|right; assumption]. unfold moved, step; cbn [d_buf d_off]. repeat split; (assumption || lia).
Qed.

(** ** Reads of fixed size, on any input *)
Definition tt1 {A} (_ : A) : Prop := True.
Lemma any_get : forall w, (0 < w <= 8)%nat -> safe (get w) (ahead tt1).
Proof. intros w W. eapply safe_weaken; [apply safe_get; lia|]. cbv beta. intros v d d' (E & _). split; [lia|exact I]. Qed.
Lemma val1 : forall {A} (m : M A), safe m (ahead tt1) -> safe m (val tt1).
Proof. intros A m H. eapply safe_weaken; [exact H|]. intros; exact I. Qed.
Lemma ret1 : forall {A} (a : A), safe (rret a) (val tt1).
Proof. intros A a. apply safe_ret. intros; exact I. Qed.
Lemma fail1 : forall {A}, safe (@rfail A ReadErr) (val tt1).
Proof. intros. apply safe_fail. discriminate. Qed.
Lemma any_get_ret : forall {B} w (k : N -> B), (0 < w <= 8)%nat -> safe (let! v := get w in rret (k v)) (val tt1).
Proof. intros. eapply safe_seq; [apply val1, any_get; assumption|]. intros; apply ret1. Qed.
Lemma any_get_int : forall w, (0 < w <= 8)%nat -> safe (get_int w) (val tt1).
Proof. intros. unfold get_int. apply any_get_ret; assumption. Qed.
Lemma any_nonneg : forall m, safe m (val tt1) -> safe (nonneg m) (val tt1).
Proof. intros m H. unfold nonneg. eapply safe_seq; [exact H|]. intros z _. destruct (z <? 0)%Z; [apply fail1|apply ret1]. Qed.
Ltac fixed := eapply safe_fwd; [apply any_get; lia|]; intros v _;
  repeat match goal with |- safe (if ?b then _ else _) _ => destruct b end;
  try apply fail1; try apply ret1; try (apply val1, any_get; lia); try (apply any_get_int; lia);
  try (apply any_nonneg, any_get_int; lia); try (apply any_nonneg, ret1); try (apply any_get_ret; lia).
Lemma any_bool : safe ReadBool (ahead tt1). Proof. unfold ReadBool. fixed. Qed.
Lemma any_int64 : safe ReadInt64 (ahead tt1). Proof. unfold ReadInt64. fixed. Qed.
Lemma any_uint64 : safe ReadUint64 (ahead tt1). Proof. unfold ReadUint64. fixed. Qed.
Lemma any_f32 : forall f, safe (ReadFloat32 f) (ahead tt1). Proof. intro. unfold ReadFloat32. fixed. Qed.
Lemma any_f64 : safe ReadFloat64 (ahead tt1). Proof. unfold ReadFloat64. fixed. Qed.
Lemma any_arr : safe ReadArraySize (ahead tt1). Proof. unfold ReadArraySize. fixed. Qed.
Lemma any_map : safe ReadMapSize (ahead tt1). Proof. unfold ReadMapSize. fixed. Qed.
Lemma any_intN : forall lo hi, safe (ReadIntN lo hi) (ahead tt1).
Proof. intros. unfold ReadIntN. eapply safe_fwd; [apply any_int64|]. intros v _. destruct (_ && _); [apply ret1|apply fail1]. Qed.
Lemma any_uintN : forall hi, safe (ReadUintN hi) (ahead tt1).
Proof. intros. unfold ReadUintN. eapply safe_fwd; [apply any_uint64|]. intros v _. destruct (_ <=? _); [apply ret1|apply fail1]. Qed.
Lemma any_nil : safe IsNextNil (val tt1).
Proof.
  unfold IsNextNil. eapply safe_seq with (P := tt1).
  - eapply safe_weaken; [apply safe_peek|]. intros; exact I.
  - intros v _. destruct (_ =? _); [|apply ret1]. eapply safe_seq with (P := tt1); [|intros; apply ret1].
    apply safe_ign, safe_discard. change (2^31) with 2147483648 in small. change (2^32) with 4294967296. lia.
Qed.
Lemma any_nillable : forall {A} (m : M A), safe m (val tt1) -> safe (ReadNillable m) (val tt1).
Proof.
  intros A m H. unfold ReadNillable. eapply safe_seq; [apply any_nil|]. intros b _. destruct b; [apply ret1|].
  eapply safe_seq; [exact H|]. intros v _. apply ret1.
Qed.
Lemma fixed_op : forall f64to32 pt fuel o, fixed_size o = true -> safe (run_op f64to32 pt fuel o) (val tt1).
Proof.
  intros f64to32 pt fuel o. induction o; intro H; try discriminate H; cbn [run_op];
  (eapply safe_seq with (P := tt1); [|intros; apply ret1]); try apply any_nil; try (apply any_nillable, IHo, H);
  apply val1; first [apply any_bool|apply any_intN|apply any_int64|apply any_uintN|apply any_uint64|apply any_f32|apply any_f64
    |apply any_arr|apply any_map].
Qed.

(** ** Lengths read from the input *)
Definition lenok (v : N) : Prop := v + len buf < 2^32 \/ (pan /\ v < 2^32).
Hypothesis tm : tame buf \/ pan.

Lemma window : forall pre x post, buf = pre ++ x ++ post -> (length x <= 8)%nat -> unbe x < 2^32 -> lenok (unbe x).
Proof.
  intros pre x post E L V. unfold lenok. destruct tm as [[_ T]|P]; [|right; split; assumption]. left.
  change (2^31) with 2147483648 in small.
  destruct (Nat.le_gt_cases 4 (length x)) as [G|G].
  - set (k := (length x - 4)%nat).
    assert (Ex : x = firstn k x ++ skipn k x) by (symmetry; apply firstn_skipn).
    assert (Lk : length (skipn k x) = 4%nat) by (rewrite skipn_length; lia).
    assert (W : wf (skipn k x)).
    { pose proof Hwf as H. rewrite E in H. apply wf_app in H as [_ H]. apply wf_app in H as [H _]. rewrite Ex in H.
      apply wf_app in H. tauto. }
    rewrite Ex in V. rewrite unbe_app in V by assumption. replace (len (skipn k x)) with 4 in V by (unfold len; rewrite Lk; reflexivity). change (256 ^ 4) with 4294967296 in V.
    assert (Z : unbe (firstn k x) = 0) by (change (2^32) with 4294967296 in V; nia).
    rewrite Ex, unbe_app, Z, N.mul_0_l, N.add_0_l by assumption.
    apply (T (pre ++ firstn k x) (skipn k x) post); [|assumption].
    rewrite E, <- app_assoc. f_equal. rewrite app_assoc. rewrite <- Ex. reflexivity.
  - assert (W : wf x).
    { pose proof Hwf as H. rewrite E in H. apply wf_app in H as [_ H]. apply wf_app in H as [H _]. exact H. }
    pose proof (unbe_bound x W) as B.
    assert (P3 : 256 ^ len x <= 256 ^ 3) by (apply N.pow_le_mono_r; [lia|unfold len; lia]).
    change (256 ^ 3) with 16777216 in P3. change (2^32) with 4294967296. lia.
Qed.

Lemma lenok_small : forall v, v < 65536 -> lenok v.
Proof. intros v H. left. change (2^31) with 2147483648 in small. change (2^32) with 4294967296. lia. Qed.

Definition lenok32 (v : N) : Prop := v < 2^32 -> lenok v.

Lemma get_len : forall w, (0 < w <= 8)%nat -> safe (get w) (ahead (fun v => v < 256 ^ N.of_nat w /\ lenok32 v)).
Proof.
  intros w W. eapply safe_weaken; [apply safe_get; lia|]. cbv beta. intros v d d' (E & pre & x & post & S & L & ->).
  split; [lia|]. split.
  - pose proof Hwf as H. rewrite S in H. apply wf_app in H as [_ H]. apply wf_app in H as [H _].
    pose proof (unbe_bound x H) as B. unfold len in B. rewrite L in B. exact B.
  - intro V. eapply window; [eassumption|lia|assumption].
Qed.
Lemma get_len4 : forall w, (0 < w <= 4)%nat -> safe (get w) (ahead lenok).
Proof.
  intros w W. eapply safe_weaken; [apply get_len; lia|]. intros v d d' (E & B & V). split; [assumption|]. apply V.
  assert (P3 : 256 ^ N.of_nat w <= 256 ^ 4) by (apply N.pow_le_mono_r; lia).
  change (256 ^ 4) with (2^32) in P3. lia.
Qed.
Lemma get_byte : safe (get 1) (ahead (fun v => v < 256)).
Proof. eapply safe_weaken; [apply get_len; lia|]. intros v d d' (E & B & V). split; [assumption|exact B]. Qed.
Lemma safe_val : forall {A} (m : M A) (P Q : A -> Prop), safe m (ahead P) -> (forall a, P a -> Q a) -> safe m (val Q).
Proof. intros A m P Q H X. eapply safe_weaken; [exact H|]. intros a d d' [_ Y]. apply X, Y. Qed.
Lemma safe_tt : forall {A} (m : M A) (P : A -> Prop), safe m (ahead P) -> safe m (val tt_).
Proof. intros. eapply safe_val; [eassumption|]. intros; exact I. Qed.

Lemma ret_val : forall {A} (a : A) (P : A -> Prop), P a -> safe (rret a) (val P).
Proof. intros A a P H. apply safe_ret. intro d. exact H. Qed.
Lemma fail_val : forall {A} (P : A -> Prop), safe (@rfail A ReadErr) (val P).
Proof. intros. apply safe_fail. discriminate. Qed.

Ltac cases := repeat match goal with |- safe (if ?b then _ else _) _ => destruct b end.

Lemma get_int_len : forall w, (0 < w <= 8)%nat -> safe (get_int w) (ahead (fun z => (0 <= z)%Z -> lenok32 (Z.to_N z))).
Proof.
  intros w W. unfold get_int. eapply safe_fwd; [apply get_len; assumption|]. cbv beta.
  intros v [B V]. apply ret_val. intros Z. unfold to_signed in *.
  destruct (N.ltb_spec v (2 ^ (8 * N.of_nat w - 1))) as [C|C]; [rewrite N2Z.id; exact V|exfalso].
  assert (E : (2 ^ Z.of_N (8 * N.of_nat w))%Z = Z.of_N (256 ^ N.of_nat w)).
  { rewrite N2Z.inj_pow. rewrite N2Z.inj_mul. change (Z.of_N 8) with 8%Z. rewrite Z.pow_mul_r by lia. reflexivity. }
  rewrite E in Z. lia.
Qed.

Lemma read_int64 : safe ReadInt64 (ahead tt_).
Proof.
  unfold ReadInt64. eapply safe_fwd; [apply get_byte|]. intros v _. cases; try apply fail_val; try (apply ret_val; exact I);
  (eapply safe_tt; apply get_int_len; lia).
Qed.
Lemma read_intN : forall lo hi, safe (ReadIntN lo hi) (ahead tt_).
Proof.
  intros. unfold ReadIntN. eapply safe_fwd; [apply read_int64|]. intros v _. cases; [apply ret_val; exact I|apply fail_val].
Qed.

Lemma of_signed_small : forall z, (0 <= z)%Z -> of_signed 64 z <= Z.to_N z.
Proof. intros z H. unfold of_signed. change (2 ^ Z.of_N 64)%Z with 18446744073709551616%Z. lia. Qed.
Lemma of_signed_id : forall z, (0 <= z < 2^63)%Z -> of_signed 64 z = Z.to_N z.
Proof. intros z H. unfold of_signed. change (2 ^ Z.of_N 64)%Z with 18446744073709551616%Z. pow_c. lia. Qed.

Lemma get_int_bound : forall w, (0 < w <= 8)%nat -> safe (get_int w) (ahead (fun z => (0 <= z)%Z -> (z < 2^63)%Z /\ lenok32 (Z.to_N z))).
Proof.
  intros w W. unfold get_int. eapply safe_fwd; [apply get_len; assumption|]. cbv beta.
  intros v [B V]. apply ret_val. intros Z. unfold to_signed in *.
  destruct (N.ltb_spec v (2 ^ (8 * N.of_nat w - 1))) as [C|C].
  - rewrite N2Z.id. split; [|exact V].
    assert (2 ^ (8 * N.of_nat w - 1) <= 2 ^ 63) by (apply N.pow_le_mono_r; lia).
    change (2^63) with 9223372036854775808 in *. change (2^63)%Z with 9223372036854775808%Z. lia.
  - exfalso. assert (E : (2 ^ Z.of_N (8 * N.of_nat w))%Z = Z.of_N (256 ^ N.of_nat w)).
    { rewrite N2Z.inj_pow. rewrite N2Z.inj_mul. change (Z.of_N 8) with 8%Z. rewrite Z.pow_mul_r by lia. reflexivity. }
    rewrite E in Z. lia.
Qed.

Lemma nonneg_len : forall w, (0 < w <= 8)%nat -> safe (nonneg (get_int w)) (val lenok32).
Proof.
  intros w W. unfold nonneg. eapply safe_seq; [eapply safe_val; [apply get_int_bound; assumption|intros a H; exact H]|].
  cbv beta. intros z H. destruct (Z.ltb_spec z 0) as [N|N]; [apply fail_val|]. apply ret_val. destruct (H N) as [B V].
  rewrite of_signed_id by lia. exact V.
Qed.

Lemma read_uint64 : safe ReadUint64 (ahead lenok32).
Proof.
  unfold ReadUint64. eapply safe_fwd; [apply get_byte|]. intros v V. cbv beta in V.
  destruct (isFixedInt v) eqn:F1; [apply ret_val; intros _; apply lenok_small; lia|].
  destruct (isNegativeFixedInt v) eqn:F2.
  { rewrite isNegativeFixedInt_range in F2 by assumption. unfold nonneg, rbind, rret.
    assert (N : (to_signed 8 v < 0)%Z).
    { unfold to_signed. change (2 ^ (8-1)) with 128. change (2 ^ Z.of_N 8)%Z with 256%Z. destruct (N.ltb_spec v 128); lia. }
    intros d L. destruct (Z.ltb_spec (to_signed 8 v) 0); [|lia]. apply (fail_val lenok32 d L). }
  cases; try apply fail_val; try (eapply safe_val; [apply get_len; lia|intros a [_ H]; exact H]);
  try (apply nonneg_len; lia).
Qed.
Lemma read_uintN : forall hi, hi < 2^32 -> safe (ReadUintN hi) (ahead lenok).
Proof.
  intros hi H. unfold ReadUintN. eapply safe_fwd; [apply read_uint64|]. intros v V.
  destruct (N.leb_spec v hi); [apply ret_val; apply V; lia|apply fail_val].
Qed.

Lemma read_bool : safe ReadBool (ahead tt_).
Proof. unfold ReadBool. eapply safe_fwd; [apply get_byte|]. intros v _. cases; try apply fail_val; apply ret_val; exact I. Qed.
Lemma read_f32 : forall f, safe (ReadFloat32 f) (ahead tt_).
Proof.
  intro f. unfold ReadFloat32. eapply safe_fwd; [apply get_byte|]. intros v _. cases; try apply fail_val.
  - eapply safe_tt. apply get_len; lia.
  - eapply safe_seq; [eapply safe_tt; apply get_len; lia|]. intros x _. apply ret_val; exact I.
Qed.
Lemma read_f64 : safe ReadFloat64 (ahead tt_).
Proof.
  unfold ReadFloat64. eapply safe_fwd; [apply get_byte|]. intros v _. cases; try apply fail_val.
  eapply safe_tt. apply get_len; lia.
Qed.

Lemma land_1f_len : forall v, lenok (N.land v 0x1f).
Proof. intro v. apply lenok_small. rewrite land_1f. lia. Qed.
Lemma land_0f_len : forall v, lenok (N.land v 0x0f).
Proof. intro v. apply lenok_small. rewrite land_0f. lia. Qed.
Lemma get_len4v : forall w, (0 < w <= 4)%nat -> safe (get w) (val lenok).
Proof. intros w W. eapply safe_val; [apply get_len4; assumption|]. intros a H; exact H. Qed.

Ltac lens := cases; try apply fail_val;
  try (apply ret_val; first [apply land_1f_len|apply land_0f_len|apply lenok_small; lia]); try (apply get_len4v; lia).
Lemma string_len : safe readStringLength (ahead lenok).
Proof. unfold readStringLength. eapply safe_fwd; [apply get_byte|]. intros v _. lens. Qed.
Lemma bin_len : safe readBinLength (ahead lenok).
Proof. unfold readBinLength. eapply safe_fwd; [apply get_byte|]. intros v _. lens. Qed.
Lemma array_len : safe ReadArraySize (ahead lenok).
Proof. unfold ReadArraySize. eapply safe_fwd; [apply get_byte|]. intros v _. lens. Qed.
Lemma map_len : safe ReadMapSize (ahead lenok).
Proof. unfold ReadMapSize. eapply safe_fwd; [apply get_byte|]. intros v _. lens. Qed.
Lemma bytes_tt : forall n, lenok n -> safe (get_bytes n) (val tt_).
Proof. intros n H. eapply safe_weaken; [apply safe_bytes, H|]. intros; exact I. Qed.
Lemma read_string : safe ReadString (ahead tt_).
Proof. unfold ReadString. eapply safe_fwd; [apply string_len|]. intros n H. apply bytes_tt, H. Qed.
Lemma read_bin : safe ReadByteArray (ahead tt_).
Proof. unfold ReadByteArray. eapply safe_fwd; [apply bin_len|]. intros n H. apply bytes_tt, H. Qed.

Lemma discard_small : forall n, n <= 17 -> safe (ign (discard n)) (val tt_).
Proof.
  intros n H. apply safe_ign, safe_discard. change (2^31) with 2147483648 in small. change (2^32) with 4294967296. lia.
Qed.
Lemma next_nil : safe IsNextNil (val tt_).
Proof.
  unfold IsNextNil. eapply safe_seq with (P := tt_).
  - eapply safe_weaken; [apply safe_peek|]. intros; exact I.
  - intros v _. cases; [|apply ret_val; exact I]. eapply safe_seq; [apply discard_small; lia|]. intros u _. apply ret_val; exact I.
Qed.
Lemma read_nillable : forall {A} (m : M A), safe m (val tt_) -> safe (ReadNillable m) (val tt_).
Proof.
  intros A m H. unfold ReadNillable. eapply safe_seq; [apply next_nil|]. intros b _. destruct b; [apply ret_val; exact I|].
  eapply safe_seq; [exact H|]. intros v _. apply ret_val; exact I.
Qed.

Lemma ext_len : forall c, safe (parseExtLen c) (val lenok).
Proof.
  intro c. unfold parseExtLen. cases; try apply fail_val; try (apply ret_val, lenok_small; lia);
  (eapply safe_val; [apply read_uintN; reflexivity|]; intros a H; exact H).
Qed.
Lemma read_time : forall pt, safe (ReadTime pt) (val tt_).
Proof.
  intro pt. unfold ReadTime. eapply safe_seq with (P := tt_).
  { eapply safe_weaken; [apply safe_peek|]. intros; exact I. }
  intros c _. destruct (isString c).
  - eapply safe_seq; [eapply safe_tt, read_string|]. intros x _. destruct (pt x); [apply ret_val; exact I|apply fail_val].
  - eapply safe_seq; [apply discard_small; lia|]. intros u _. eapply safe_seq with (P := fun p => lenok (snd p)).
    + unfold extHeader. eapply safe_seq; [apply ext_len|]. intros l L. eapply safe_seq; [eapply safe_tt, get_byte|]. intros id _.
      apply ret_val. exact L.
    + intros [id l] L. cbn [snd] in L. destruct (negb _ && negb _); [apply fail_val|]. unfold decodeTime.
      eapply safe_seq; [apply bytes_tt, L|]. intros b _. cases; try apply fail_val; apply ret_val; exact I.
Qed.

(** ** Loops and recursion: [safe] from a position on *)
Definition safe_from {A} (o : N) (m : M A) (P : A -> dr -> dr -> Prop) : Prop := forall d, live d -> o <= d_off d ->
  match m d with
  | Ret (a, d') => moved d d' /\ P a d d'
  | Fail (e, d') => moved d d' /\ e <> OutOfFuel
  | Panic => pan
  end.

Lemma from_safe : forall {A} (m : M A) P, (forall o, safe_from o m P) -> safe m P.
Proof. intros A m P H d L. apply (H (d_off d) d L). lia. Qed.
Lemma safe_to_from : forall {A} o (m : M A) P, safe m P -> safe_from o m P.
Proof. intros A o m P H d L _. apply (H d L). Qed.
Lemma from_seq : forall {A B} o (m : M A) (k : A -> M B) (P : A -> Prop) (Q : B -> Prop),
  safe_from o m (val P) -> (forall a, P a -> safe_from o (k a) (val Q)) -> safe_from o (rbind m k) (val Q).
Proof.
  intros A B o m k P Q Hm Hk d L O. unfold rbind. specialize (Hm d L O). destruct (m d) as [[a d']|[e d']|]; [|assumption..].
  destruct Hm as [M1 HP]. assert (L' : live d') by (destruct M1 as (? & ? & ?); split; assumption).
  assert (O' : o <= d_off d') by (destruct M1 as (? & ? & ?); lia).
  specialize (Hk a HP d' L' O'). destruct (k a d') as [[b d'']|[e d'']|]; [| |assumption];
  destruct Hk as [M2 HQ]; (split; [unfold moved in *; intuition lia|assumption]).
Qed.

Lemma from_times : forall {A} o (body : A -> M A) (P : A -> Prop) n a,
  (forall a, P a -> safe_from o (body a) (val P)) -> P a -> safe_from o (times n body a) (val P).
Proof.
  intros A o body P n. induction n as [|n IH] using N.peano_ind; intros a H Pa.
  - apply safe_to_from, ret_val, Pa.
  - intros d L O. rewrite <- N.add_1_l, times_succ. specialize (H a Pa) as Ha. specialize (Ha d L O).
    destruct (body a d) as [[a' d']|[e d']|]; [|assumption..].
    destruct Ha as [M1 HP]. assert (L' : live d') by (destruct M1 as (? & ? & ?); split; assumption).
    assert (O' : o <= d_off d') by (destruct M1 as (? & ? & ?); lia).
    specialize (IH a' H HP d' L' O'). destruct (times n body a' d') as [[b d'']|[e d'']|]; [| |assumption];
    destruct IH as [M2 HQ]; (split; [unfold moved in *; intuition lia|assumption]).
Qed.

(** One step forward, then code that may assume it. *)
Lemma from_fwd : forall {A B} o (m : M A) (k : A -> M B) (P : A -> Prop) (Q : B -> Prop),
  safe m (ahead P) -> (forall a, P a -> safe_from (1 + o) (k a) (val Q)) -> safe_from o (rbind m k) (val Q).
Proof.
  intros A B o m k P Q Hm Hk d L O. unfold rbind. specialize (Hm d L). destruct (m d) as [[a d']|[e d']|]; [|assumption..].
  destruct Hm as [M1 [HA HP]]. assert (L' : live d') by (destruct M1 as (? & ? & ?); split; assumption).
  assert (O' : 1 + o <= d_off d') by lia.
  specialize (Hk a HP d' L' O'). destruct (k a d') as [[b d'']|[e d'']|]; [| |assumption];
  destruct Hk as [M2 HQ]; (split; [unfold moved in *; intuition lia|assumption]).
Qed.

Ltac fcases := repeat match goal with |- safe_from _ (if ?b then _ else _) _ => destruct b end.

Lemma get_ret : forall {B} w (k : N -> B) , (0 < w <= 8)%nat -> safe (let! v := get w in rret (k v)) (val tt_).
Proof. intros. eapply safe_seq; [eapply safe_tt, get_len; assumption|]. intros; apply ret_val; exact I. Qed.
Lemma get_int_ret : forall {B} w (k : Z -> B) , (0 < w <= 8)%nat -> safe (let! v := get_int w in rret (k v)) (val tt_).
Proof. intros. eapply safe_seq; [eapply safe_tt, get_int_len; assumption|]. intros; apply ret_val; exact I. Qed.
Lemma bytes_ret : forall {B} n (k : bytes -> B), lenok n -> safe (let! v := get_bytes n in rret (k v)) (val tt_).
Proof. intros. eapply safe_seq; [apply bytes_tt; assumption|]. intros; apply ret_val; exact I. Qed.
Lemma get_bytes_ret : forall {B} w (k : bytes -> B), (0 < w <= 4)%nat ->
  safe (let! n := get w in let! s := get_bytes n in rret (k s)) (val tt_).
Proof. intros. eapply safe_seq; [apply get_len4v; assumption|]. intros n L. apply bytes_ret, L. Qed.

(** ReadAny: the recursion is bounded by the bytes left.  [nomap]: a byte announcing a map is not present. *)
Hypothesis nomap : (forall b, In b buf -> ~ map_tag b) \/ pan.

Lemma get_tag : safe (get 1) (ahead (fun v => v < 256 /\ (~ map_tag v \/ pan))).
Proof.
  eapply safe_weaken; [apply safe_get; lia|]. cbv beta. intros v d d' (E & pre & x & post & S & L & ->).
  split; [lia|]. pose proof Hwf as H. rewrite S in H. apply wf_app in H as [_ H]. apply wf_app in H as [H _].
  destruct x as [|b [|? ?]]; try discriminate L. rewrite unbe1. split.
  - inversion H; assumption.
  - destruct nomap as [X|X]; [left|right; assumption]. apply X. rewrite S. apply in_or_app. right. left. reflexivity.
Qed.

Lemma readArray_from : forall o rd n, safe_from o rd (val tt_) -> safe_from o (readArray rd n) (val tt_).
Proof.
  intros o rd n H. unfold readArray. eapply from_seq.
  - apply (from_times o _ tt_); [|exact I]. intros acc _. eapply from_seq; [exact H|]. intros v _. apply safe_to_from, ret_val. exact I.
  - intros l _. apply safe_to_from, ret_val. exact I.
Qed.
Lemma readMap_from : forall o rd n, pan -> safe_from o rd (val tt_) -> safe_from o (readMap rd n) (val tt_).
Proof.
  intros o rd n HP H. unfold readMap. eapply from_seq.
  - apply (from_times o _ tt_); [|exact I]. intros acc _. eapply from_seq; [exact H|]. intros v _. eapply from_seq; [exact H|].
    intros v' _. destruct (hashable v); [apply safe_to_from, ret_val; exact I|]. intros d L O. exact HP.
  - intros l _. apply safe_to_from, ret_val. exact I.
Qed.

Lemma read_any_from : forall fuel o, len buf < o + N.of_nat fuel -> safe_from o (ReadAny fuel) (val tt_).
Proof.
  induction fuel as [|fuel IH]; intros o F.
  { intros d [L1 L2] O. lia. }
  cbn [ReadAny]. eapply from_fwd; [apply get_tag|]. cbv beta. intros b [B T].
  assert (R : safe_from (1 + o) (ReadAny fuel) (val tt_)) by (apply IH; lia).
  destruct (isFixedInt b || isNegativeFixedInt b) eqn:E1; [apply safe_to_from, ret_val; exact I|].
  destruct (isFixedString b) eqn:E2; [apply safe_to_from, bytes_ret, land_1f_len|].
  destruct (isFixedArray b) eqn:E3; [apply readArray_from, R|].
  destruct (isFixedMap b) eqn:E4.
  { apply readMap_from; [|exact R]. destruct T as [T|T]; [|exact T]. destruct T. left. rewrite isFixedMap_range in E4 by assumption. lia. }
  destruct (b =? FormatNil); [apply safe_to_from, ret_val; exact I|].
  destruct (b =? FormatTrue); [apply safe_to_from, ret_val; exact I|].
  destruct (b =? FormatFalse); [apply safe_to_from, ret_val; exact I|].
  destruct (b =? FormatInt8); [apply safe_to_from, get_int_ret; lia|].
  destruct (b =? FormatInt16); [apply safe_to_from, get_int_ret; lia|].
  destruct (b =? FormatInt32); [apply safe_to_from, get_int_ret; lia|].
  destruct (b =? FormatInt64); [apply safe_to_from, get_int_ret; lia|].
  destruct (b =? FormatUint8); [apply safe_to_from, get_ret; lia|].
  destruct (b =? FormatUint16); [apply safe_to_from, get_ret; lia|].
  destruct (b =? FormatUint32); [apply safe_to_from, get_ret; lia|].
  destruct (b =? FormatUint64); [apply safe_to_from, get_ret; lia|].
  destruct (b =? FormatFloat32); [apply safe_to_from, get_ret; lia|].
  destruct (b =? FormatFloat64); [apply safe_to_from, get_ret; lia|].
  destruct (b =? FormatString8); [apply safe_to_from, get_bytes_ret; lia|].
  destruct (b =? FormatString16); [apply safe_to_from, get_bytes_ret; lia|].
  destruct (b =? FormatString32); [apply safe_to_from, get_bytes_ret; lia|].
  destruct (b =? FormatArray16).
  { eapply from_seq; [apply safe_to_from; eapply safe_tt, (get_len 2); lia|]. intros n _. apply readArray_from, R. }
  destruct (b =? FormatArray32).
  { eapply from_seq; [apply safe_to_from; eapply safe_tt, (get_len 4); lia|]. intros n _. apply readArray_from, R. }
  destruct (N.eqb_spec b FormatMap16) as [->|].
  { eapply from_seq; [apply safe_to_from; eapply safe_tt, (get_len 2); lia|]. intros n _. apply readMap_from; [|exact R].
    destruct T as [T|T]; [|exact T]. destruct T. right; left; reflexivity. }
  destruct (N.eqb_spec b FormatMap32) as [->|].
  { eapply from_seq; [apply safe_to_from; eapply safe_tt, (get_len 4); lia|]. intros n0 _. apply readMap_from; [|exact R].
    destruct T as [T|T]; [|exact T]. destruct T. right; right; reflexivity. }
  destruct (b =? FormatBin8); [apply safe_to_from, get_bytes_ret; lia|].
  destruct (b =? FormatBin16); [apply safe_to_from, get_bytes_ret; lia|].
  destruct (b =? FormatBin32); [apply safe_to_from, get_bytes_ret; lia|].
  apply safe_to_from, fail_val.
Qed.
Lemma read_any : forall fuel, (length buf < fuel)%nat -> safe (ReadAny fuel) (val tt_).
Proof. intros fuel F. intros d L. apply (read_any_from fuel 0); [unfold len; lia|exact L|lia]. Qed.

(** Skip: here the lengths must be harmless. *)
Hypothesis T : tame buf.
Lemma discard_len : forall w, (0 < w <= 4)%nat -> safe (let! n := get w in let! _ := discard n in rret 0) (val tt_).
Proof.
  intros w W. eapply safe_seq with (P := fun n => n + len buf < 2^32).
  - eapply safe_weaken; [apply safe_get; lia|]. cbv beta. intros v d d' (E & pre & x & post & S & L & ->). unfold val.
    destruct (Nat.eq_dec w 4) as [->|N]; [destruct T as [_ T']; eapply T'; eassumption|].
    pose proof Hwf as H. rewrite S in H. apply wf_app in H as [_ H]. apply wf_app in H as [H _].
    pose proof (unbe_bound x H) as B. unfold len in B. rewrite L in B.
    assert (P3 : 256 ^ N.of_nat w <= 256 ^ 3) by (apply N.pow_le_mono_r; lia).
    change (256^3) with 16777216 in P3. change (2^31) with 2147483648 in small. change (2^32) with 4294967296. lia.
  - intros n N. eapply safe_seq; [apply safe_discard, N|]. intros u _. apply ret_val. exact I.
Qed.
Lemma get_size : safe getSize (ahead tt_).
Proof.
  unfold getSize. eapply safe_fwd; [apply get_byte|]. intros b _.
  assert (X : forall n, n <= 17 -> safe (let! _ := ign (discard n) in rret 0) (val tt_)).
  { intros n H. eapply safe_seq; [apply discard_small, H|]. intros u _. apply ret_val. exact I. }
  destruct (isNegativeFixedInt b || isFixedInt b); [apply ret_val; exact I|].
  destruct (isFixedString b).
  { eapply safe_seq; [apply safe_ign, safe_discard|intros u _; apply ret_val; exact I].
    rewrite land_1f. change (2^31) with 2147483648 in small. change (2^32) with 4294967296. lia. }
  cases; try (apply ret_val; exact I); try (apply discard_len; lia); try (apply X; lia); try apply fail_val;
  try (eapply safe_tt, get_len; lia); apply get_ret; lia.
Qed.
Lemma skip_from : forall fuel o, len buf < o + N.of_nat fuel -> safe_from o (Skip fuel) (val tt_).
Proof.
  induction fuel as [|fuel IH]; intros o F.
  { intros d [L1 L2] O. lia. }
  cbn [Skip]. eapply from_fwd; [apply get_size|]. intros n _. apply from_times; [|exact I].
  intros a _. apply IH. lia.
Qed.
Lemma read_skip : forall fuel, (length buf < fuel)%nat -> safe (Skip fuel) (val tt_).
Proof. intros fuel F. intros d L. apply (skip_from fuel 0); [unfold len; lia|exact L|lia]. Qed.
End Hostile.

(** ** Sequences of reads *)
Section Client.
Variable f64to32 : N -> N.
Variable pt : bytes -> option gtime.

Lemma run_void : forall buf pan (S : len buf < 2^31) {A} (m : M A), safe buf pan m (val tt_) -> safe buf pan (let! _ := m in rret tt) (val tt_).
Proof. intros. eapply safe_seq; [assumption|eassumption|]. intros a _. apply ret_val; [assumption|]. exact I. Qed.

Lemma run_op_safe : forall buf pan fuel o, tame buf -> wf buf -> (length buf < fuel)%nat ->
  (is_any o = true -> (forall b, In b buf -> ~ map_tag b) \/ pan) -> safe buf pan (run_op f64to32 pt fuel o) (val tt_).
Proof.
  intros buf pan fuel o T W F. pose proof T as [S _]. induction o; intro N; cbn [run_op];
  try (apply run_void; [assumption|]; first [apply next_nil; assumption | eapply safe_tt; first
    [apply read_bool | apply read_intN | apply read_int64 | apply read_uint64 | apply read_f32 | apply read_f64
    |apply read_string|apply read_bin|apply array_len|apply map_len | apply read_uintN]; try assumption; try (left; assumption); reflexivity
    | apply read_time; try assumption; left; assumption ]).
  - apply read_skip; try assumption; left; assumption.
  - apply run_void; [assumption|]. apply read_any; try assumption; [left; assumption|apply N; reflexivity].
  - apply run_void; [assumption|]. apply read_nillable; try assumption. apply IHo. exact N.
Qed.

Definition rets_ok (rs : list (option rerr)) : Prop := Forall (fun r => r <> Some OutOfFuel) rs.

Lemma run_ops_safe : forall fuel l d, let buf := d_buf d in tame buf -> wf buf -> (length buf < fuel)%nat -> d_off d <= len buf ->
  (existsb is_any l = true -> forall b, In b buf -> ~ map_tag b) ->
  exists rs d', run_ops f64to32 pt fuel l d = Ret (rs, d') /\ length rs = length l /\ rets_ok rs /\
    d_buf d' = buf /\ d_off d <= d_off d' <= len buf.
Proof.
  intros fuel l; induction l as [|o l IH]; intros d buf T W F O N; cbn [run_ops].
  { exists [], d. repeat split; try lia. constructor. }
  assert (X := run_op_safe buf False fuel o T W F).
  assert (N1 : is_any o = true -> (forall b, In b buf -> ~ map_tag b) \/ False).
  { intro E. left. apply N. cbn [existsb]. rewrite E. reflexivity. }
  specialize (X N1 d (conj eq_refl O)).
  assert (N2 : existsb is_any l = true -> forall b, In b buf -> ~ map_tag b).
  { intro E. apply N. cbn [existsb]. rewrite E. apply orb_true_r. }
  destruct (run_op f64to32 pt fuel o d) as [[u d1]|[e d1]|]; [| |contradiction].
  - destruct X as [(B1 & O1 & O2) _].
    destruct (IH d1) as (rs & d' & E & L & R & B & Q); try (rewrite B1; assumption).
    exists (None :: rs), d'. rewrite E. cbn [bind length]. rewrite B1 in *. repeat split; try assumption; try lia.
    constructor; [discriminate|assumption].
  - destruct X as [(B1 & O1 & O2) NE].
    destruct (IH d1) as (rs & d' & E & L & R & B & Q); try (rewrite B1; assumption).
    exists (Some e :: rs), d'. rewrite E. cbn [bind length]. rewrite B1 in *. repeat split; try assumption; try lia.
    constructor; [congruence|assumption].
Qed.

(** After a range error every read fails and nothing moves. *)
Lemma bind_bad : forall {A B} (m : M A) (k : A -> M B) d e, m d = Fail (e, d) -> rbind m k d = Fail (e, d).
Proof. intros A B m k d e H. unfold rbind. rewrite H. reflexivity. Qed.
Lemma get_bad : forall w d, d_err d = true -> get w d = Fail (ErrRange, d).
Proof. intros w d H. unfold get, check. rewrite H. reflexivity. Qed.
Lemma peek_bad : forall d, d_err d = true -> peek8 d = Fail (ErrRange, d).
Proof. intros d H. unfold peek8, check. rewrite H. reflexivity. Qed.
Lemma run_op_bad : forall fuel o d, d_err d = true -> run_op f64to32 pt (S fuel) o d = Fail (ErrRange, d).
Proof.
  intros fuel o d H. destruct o; cbn [run_op Skip ReadAny];
  repeat apply bind_bad; first [apply get_bad; assumption|apply peek_bad; assumption].
Qed.
Lemma run_ops_bad : forall fuel l d, d_err d = true ->
  run_ops f64to32 pt (S fuel) l d = Ret (repeat (Some ErrRange) (length l), d).
Proof.
  intros fuel l d H; induction l as [|o l IH]; cbn [run_ops length repeat]; [reflexivity|].
  rewrite run_op_bad, IH by assumption. reflexivity.
Qed.
End Client.

(** Reads of fixed size never panic, whatever the bytes. *)
Lemma fixed_never_panics : forall f64to32 pt fuel o d, fixed_size o = true -> len (d_buf d) < 2^31 -> wf (d_buf d) ->
  d_off d <= len (d_buf d) ->
  exists r d', run_op f64to32 pt fuel o d = match r with None => Ret (tt, d') | Some e => Fail (e, d') end /\
    r <> Some OutOfFuel /\ d_buf d' = d_buf d /\ d_off d <= d_off d' <= len (d_buf d).
Proof.
  intros f64to32 pt fuel o d H S W O.
  pose proof (fixed_op (d_buf d) False S f64to32 pt fuel o H d (conj eq_refl O)) as X.
  destruct (run_op f64to32 pt fuel o d) as [[[] d']|[e d']|]; [|..|contradiction].
  - exists None, d'. destruct X as [(A & B & C) _]. split; [reflexivity|]. split; [discriminate|]. split; [exact A|split; assumption].
  - exists (Some e), d'. destruct X as [(A & B & C) D]. split; [reflexivity|]. split; [congruence|]. split; [exact A|split; assumption].
Qed.

(** ReadAny on any input shorter than 2 GiB: the recursion ends. *)
Lemma read_any_ends : forall d fuel e d', wf (d_buf d) -> len (d_buf d) < 2^31 -> d_off d <= len (d_buf d) ->
  (length (d_buf d) < fuel)%nat -> ReadAny fuel d = Fail (e, d') -> e <> OutOfFuel.
Proof.
  intros d fuel e d' W S O F E.
  pose proof (read_any (d_buf d) True S W (or_intror I) (or_intror I) fuel F d (conj eq_refl O)) as X.
  rewrite E in X. apply X.
Qed.

(** When taking [n] bytes panics, exactly. *)
Lemma get_bytes_panics : forall n d, d_off d <= len (d_buf d) -> len (d_buf d) < 2^32 -> n < 2^32 ->
  (get_bytes n d = Panic <->
   d_err d = false /\ 2^32 <= d_off d + n /\ d_off d + n - 2^32 <= len (d_buf d)).
Proof.
  intros n d O B N. unfold get_bytes, check. pow_n. unfold u32. pow_n.
  destruct (d_err d); [split; [discriminate|intros (X & _); discriminate]|].
  rewrite (N.mod_small (len (d_buf d))) by assumption.
  destruct (N.ltb_spec (len (d_buf d)) ((d_off d + n) mod 4294967296)) as [C|C].
  - split; [discriminate|]. intros (_ & X & Y). exfalso. clear - O B N C X Y. lia.
  - destruct (N.leb_spec (d_off d) ((d_off d + n) mod 4294967296)) as [C1|C1]; cbn [andb].
    + destruct (N.leb_spec ((d_off d + n) mod 4294967296) (len (d_buf d))) as [C2|C2]; [|lia].
      split; [discriminate|]. intros (_ & X & Y). exfalso. clear - O B N C1 X Y. lia.
    + split; [intros _|reflexivity]. split; [reflexivity|]. clear - O B N C C1. lia.
Qed.

(** Skipping two values, the first a string whose announced length takes the reader back to its own start. *)
Definition loop_input : bytes := [0x92; 0xdb; 0xff; 0xff; 0xff; 0xfa].
Lemma loop_skip : forall fuel, exists d', Skip fuel (new_dr loop_input) = Fail (OutOfFuel, d').
Proof.
  induction fuel as [|fuel [d' IH]]; [eexists; reflexivity|].
  cbn [Skip]. unfold rbind.
  change (getSize (new_dr loop_input)) with (@Ret (rerr * dr) (N * dr) (1 + 1, mkDR loop_input 1 false)).
  cbv beta iota. rewrite times_succ. destruct fuel as [|fuel]; [eexists; reflexivity|].
  cbn [Skip] in IH |- *. unfold rbind at 1.
  change (getSize (mkDR loop_input 1 false)) with (@Ret (rerr * dr) (N * dr) (0, new_dr loop_input)).
  cbv beta iota. rewrite times_0. change 1 with (1 + 0). rewrite times_succ, IH. eexists; reflexivity.
Qed.
