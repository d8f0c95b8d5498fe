(** Reading strings, sizes, nillable values; what an integer read can return on arbitrary bytes. *)
From Coq Require Import List NArith ZArith Lia Bool ZifyBool ZifyNat ZifyN.
From Verif Require Import Base BaseLemmas OperationsModel MsgpackModel MsgpackSpec MsgpackClient MsgpackIOProofs MsgpackProofs.
Import ListNotations.
Open Scope N_scope.
Ltac Zify.zify_post_hook ::= Z.div_mod_to_equations.

Ltac pick_len := pow_n;
  match goal with H : _ < len_limit _ ?f |- _ => destruct f; cbn [len_limit] in H; pow_n end.

Lemma str_len_reads : forall f n, n < len_limit 32 f -> reads readStringLength (str_head f n) n.
Proof.
  intros f n H. unfold readStringLength. destruct f; cbn [len_limit] in H; pow_n; cbn [str_head]; apply reads_prefix.
  - rewrite isFixedString_range by lia.
    replace ((160 <=? 160 + n) && (160 + n <? 192)) with true by lia. rewrite land_1f.
    replace ((160 + n) mod 32) with n by lia. apply reads_ret.
  - apply (get_be_step 1). exact H.
  - apply (get_be_step 2). exact H.
  - apply (get_be_step 4). exact H.
Qed.
Lemma bin_len_reads : forall f n, f <> InTag -> n < len_limit 0 f -> reads readBinLength (bin_head f n) n.
Proof.
  intros f n D H. unfold readBinLength. destruct f; [congruence|..]; cbn [len_limit] in H; pow_n; cbn [bin_head]; apply reads_prefix.
  - apply (get_be_step 1). exact H.
  - apply (get_be_step 2). exact H.
  - apply (get_be_step 4). exact H.
Qed.
Lemma arr_len_reads : forall f n, f <> Len8 -> n < len_limit 16 f -> reads ReadArraySize (arr_head f n) n.
Proof.
  intros f n D H. unfold ReadArraySize. destruct f; [|congruence|..]; cbn [len_limit] in H; pow_n; cbn [arr_head]; apply reads_prefix.
  - rewrite isFixedArray_range by lia.
    replace ((144 <=? 144 + n) && (144 + n <? 160)) with true by lia. rewrite land_0f.
    replace ((144 + n) mod 16) with n by lia. apply reads_ret.
  - apply (get_be_step 2). exact H.
  - apply (get_be_step 4). exact H.
Qed.
Lemma map_len_reads : forall f n, f <> Len8 -> n < len_limit 16 f -> reads ReadMapSize (map_head f n) n.
Proof.
  intros f n D H. unfold ReadMapSize. destruct f; [|congruence|..]; cbn [len_limit] in H; pow_n; cbn [map_head]; apply reads_prefix.
  - rewrite isFixedMap_range by lia.
    replace ((128 <=? 128 + n) && (128 + n <? 144)) with true by lia. rewrite land_0f.
    replace ((128 + n) mod 16) with n by lia. apply reads_ret.
  - apply (get_be_step 2). exact H.
  - apply (get_be_step 4). exact H.
Qed.

Lemma short_len_limit : forall small has8 n, n < 2^32 -> n < len_limit small (short_len small has8 n).
Proof.
  intros. unfold short_len. destruct (N.ltb_spec n small); [assumption|].
  destruct has8; cbn [andb].
  - destruct (N.ltb_spec n (2^8)); [assumption|]. destruct (N.ltb_spec n (2^16)); assumption.
  - destruct (N.ltb_spec n (2^16)); assumption.
Qed.
Lemma short_len_not8 : forall small n, short_len small false n <> Len8.
Proof. intros. unfold short_len. cbn [andb]. destruct (n <? small); [discriminate|]. destruct (n <? 2^16); discriminate. Qed.
Lemma short_len_not_tag : forall n, short_len 0 true n <> InTag.
Proof.
  intros. unfold short_len. destruct (N.ltb_spec n 0); [lia|]. cbn [andb].
  destruct (n <? 2^8); [discriminate|]. destruct (n <? 2^16); discriminate.
Qed.

Lemma read_string_reads : forall f s, len s < len_limit 32 f -> reads ReadString (mv_bytes (MStr f s)) s.
Proof.
  intros. unfold ReadString. cbn [mv_bytes].
  eapply reads_bind; [apply str_len_reads; assumption|apply get_bytes_step; reflexivity].
Qed.
Lemma read_bytes_reads : forall f s, f <> InTag -> len s < len_limit 0 f -> reads ReadByteArray (mv_bytes (MBin f s)) s.
Proof.
  intros. unfold ReadByteArray. cbn [mv_bytes].
  eapply reads_bind; [apply bin_len_reads; assumption|apply get_bytes_step; reflexivity].
Qed.

Lemma nil_reads : reads IsNextNil [0xc0] true.
Proof.
  unfold IsNextNil. apply reads_peek. cbn.
  apply reads_bind0 with (a := tt); [apply ign_step, discard_step; reflexivity|apply reads_ret].
Qed.
Lemma nillable_nil : forall {A} (m : M A), reads (ReadNillable m) [0xc0] None.
Proof. intros. unfold ReadNillable. apply reads_bind0 with (a := true); [apply nil_reads|apply reads_ret]. Qed.
Lemma nillable_some : forall {A} (m : M A) b bs a, b <> 0xc0 -> reads m (b :: bs) a -> reads (ReadNillable m) (b :: bs) (Some a).
Proof.
  intros A m b bs a D H pre rest F. unfold ReadNillable, IsNextNil, rbind at 1 2. cbn [app] in *.
  rewrite peek8_at by assumption. unfold FormatNil. destruct (N.eqb_spec b 0xc0); [congruence|].
  unfold rret at 1. unfold rbind. pose proof (H pre rest F) as X. cbn [app] in X. rewrite X. reflexivity.
Qed.

Lemma scal_writes : forall s, scal_ok s -> writes (enc_scal s) (mv_bytes (scal_mv s)).
Proof.
  intros s H. destruct s; cbn [enc_scal scal_mv scal_ok mv_bytes] in *;
  try (apply write_int_writes; pow_c; lia); try (apply write_uint_writes; pow_n; lia).
  - destruct b; [apply (set_uint_writes 1 0xc3)|apply (set_uint_writes 1 0xc2)].
  - apply be_head_writes. reflexivity.
  - apply be_head_writes. reflexivity.
  - apply write_string_writes. tauto.
  - apply (write_time_writes t H).
  - apply write_bytes_writes. tauto.
Qed.

Lemma to_N_of_N : forall n, Z.to_N (Z.of_N n) = n.
Proof. intro; lia. Qed.

Lemma scal_reads : forall c pt s, scal_ok s -> reads (read_kind c pt (kind_of s)) (mv_bytes (scal_mv s)) s.
Proof.
  intros c pt s H. destruct s; cbn [kind_of read_kind scal_mv scal_ok mv_bytes] in *;
  match goal with |- reads _ _ (SBool ?x) => apply reads_bind0 with (a := x); [|apply reads_ret]
                | |- reads _ _ (SInt ?x) => apply reads_bind0 with (a := x); [|apply reads_ret]
                | |- reads _ _ (SI8 ?x) => apply reads_bind0 with (a := x); [|apply reads_ret]
                | |- reads _ _ (SI16 ?x) => apply reads_bind0 with (a := x); [|apply reads_ret]
                | |- reads _ _ (SI32 ?x) => apply reads_bind0 with (a := x); [|apply reads_ret]
                | |- reads _ _ (SI64 ?x) => apply reads_bind0 with (a := x); [|apply reads_ret]
                | |- reads _ _ (SUint ?x) => apply reads_bind0 with (a := x); [|apply reads_ret]
                | |- reads _ _ (SU8 ?x) => apply reads_bind0 with (a := x); [|apply reads_ret]
                | |- reads _ _ (SU16 ?x) => apply reads_bind0 with (a := x); [|apply reads_ret]
                | |- reads _ _ (SU32 ?x) => apply reads_bind0 with (a := x); [|apply reads_ret]
                | |- reads _ _ (SU64 ?x) => apply reads_bind0 with (a := x); [|apply reads_ret]
                | |- reads _ _ (SF32 ?x) => apply reads_bind0 with (a := x); [|apply reads_ret]
                | |- reads _ _ (SF64 ?x) => apply reads_bind0 with (a := x); [|apply reads_ret]
                | |- reads _ _ (SStr ?x) => apply reads_bind0 with (a := x); [|apply reads_ret]
                | |- reads _ _ (STime ?x) => apply reads_bind0 with (a := x); [|apply reads_ret]
                | |- reads _ _ (SBytes ?x) => apply reads_bind0 with (a := x); [|apply reads_ret]
  end.
  - unfold ReadBool. apply reads_prefix. destruct b; apply reads_ret.
  - apply read_int_reads; apply short_signed_range; pow_c; lia.
  - apply read_intN_reads; try (apply short_signed_range; pow_c; lia). pow_c; lia.
  - apply read_intN_reads; try (apply short_signed_range; pow_c; lia). pow_c; lia.
  - apply read_intN_reads; try (apply short_signed_range; pow_c; lia). pow_c; lia.
  - apply read_int_reads; apply short_signed_range; pow_c; lia.
  - rewrite <- (to_N_of_N n) at 3. apply read_uint_reads; [apply short_unsigned_range|]; pow_n; lia.
  - rewrite <- (to_N_of_N n) at 3. apply read_uintN_reads; [apply short_unsigned_range|..]; pow_n; lia.
  - rewrite <- (to_N_of_N n) at 3. apply read_uintN_reads; [apply short_unsigned_range|..]; pow_n; lia.
  - rewrite <- (to_N_of_N n) at 3. apply read_uintN_reads; [apply short_unsigned_range|..]; pow_n; lia.
  - rewrite <- (to_N_of_N n) at 3. apply read_uint_reads; [apply short_unsigned_range|]; pow_n; lia.
  - unfold ReadFloat32. apply reads_prefix. apply (get_be_step 4). exact H.
  - unfold ReadFloat64. apply reads_prefix. apply (get_be_step 8). exact H.
  - apply read_string_reads. apply short_len_limit. tauto.
  - apply (read_time_reads pt t H).
  - apply read_bytes_reads; [apply short_len_not_tag|apply short_len_limit; tauto].
Qed.

(** No encoded single value starts with the nil byte. *)
Lemma int_bytes_head : forall f z, int_range f z -> exists b bs, int_bytes f z = b :: bs /\ b < 256 /\ b <> 0xc0.
Proof.
  intros f z R. destruct f; unfold int_bytes; cbn [int_tag int_width app];
  try (eexists; eexists; split; [reflexivity|split; [reflexivity|discriminate]]).
  - change (256 ^ Z.of_nat 1)%Z with 256%Z. rewrite be1 by lia. eexists; eexists; split; [reflexivity|].
    cbn [int_range] in R. split; lia.
  - change (256 ^ Z.of_nat 1)%Z with 256%Z. rewrite be1 by lia. eexists; eexists; split; [reflexivity|].
    cbn [int_range] in R. split; lia.
Qed.

Lemma scal_head : forall s, scal_ok s -> exists b bs, mv_bytes (scal_mv s) = b :: bs /\ b < 256 /\ b <> 0xc0.
Proof.
  intros s H. destruct s; cbn [scal_mv scal_ok mv_bytes] in *;
  try (apply int_bytes_head; apply short_signed_range; pow_c; lia);
  try (apply int_bytes_head; apply short_unsigned_range; pow_n; lia).
  - destruct b; eexists; eexists; (split; [reflexivity|split; [reflexivity|discriminate]]).
  - eexists; eexists; (split; [reflexivity|split; [reflexivity|discriminate]]).
  - eexists; eexists; (split; [reflexivity|split; [reflexivity|discriminate]]).
  - destruct H as [H _]. pose proof (short_len_limit 32 true _ H) as X.
    destruct (short_len 32 true (len s)); cbn [str_head app len_limit] in *;
    eexists; eexists; (split; [reflexivity|split; lia]).
  - destruct (time_data_len t) as [E|[E|E]]; rewrite E; cbn [N.eqb Pos.eqb ext_head app];
    eexists; eexists; (split; [reflexivity|split; [reflexivity|discriminate]]).
  - pose proof (short_len_not_tag (len s)) as X.
    destruct (short_len 0 true (len s)); [congruence|..]; cbn [bin_head app];
    eexists; eexists; (split; [reflexivity|split; [reflexivity|discriminate]]).
Qed.

(** ** Integers on arbitrary bytes *)
Lemma to_signed_range : forall w v, (0 < w)%nat -> v < 256 ^ N.of_nat w ->
  (- 2 ^ (8 * Z.of_nat w - 1) <= to_signed (8 * N.of_nat w) v < 2 ^ (8 * Z.of_nat w - 1))%Z /\
  Z.to_N (to_signed (8 * N.of_nat w) v mod 256 ^ Z.of_nat w) = v.
Proof.
  intros w v K H. unfold to_signed.
  rewrite N2Z.inj_mul, nat_N_Z. change (Z.of_N 8) with 8%Z.
  assert (E : (2 ^ (8 * Z.of_nat w) = 2 * 2 ^ (8 * Z.of_nat w - 1))%Z).
  { rewrite <- Z.pow_succ_r by lia. f_equal. lia. }
  assert (E2 : (256 ^ Z.of_nat w = 2 ^ (8 * Z.of_nat w))%Z) by (rewrite Z.pow_mul_r by lia; reflexivity).
  assert (Hz : (Z.of_N v < 2 ^ (8 * Z.of_nat w))%Z).
  { rewrite <- E2. apply N2Z.inj_lt in H. rewrite N2Z.inj_pow in H. rewrite nat_N_Z in H. exact H. }
  rewrite E2. set (m := (8 * Z.of_nat w)%Z) in *.
  assert (P : (0 < 2 ^ (m - 1))%Z) by (apply Z.pow_pos_nonneg; lia).
  assert (En : 2 ^ (8 * N.of_nat w - 1) = Z.to_N (2 ^ (m - 1))) by (rewrite Z2N.inj_pow by lia; f_equal; lia).
  rewrite En. destruct (N.ltb_spec v (Z.to_N (2 ^ (m - 1)))).
  - split; [lia|]. rewrite Z.mod_small by lia. lia.
  - split; [lia|]. replace ((Z.of_N v - 2 ^ m) mod 2 ^ m)%Z with (Z.of_N v); [lia|].
    apply Z.mod_unique_pos with (q := (-1)%Z); lia.
Qed.

Lemma wf_unbe : forall x w, wf x -> length x = w -> unbe x < 256 ^ N.of_nat w.
Proof. intros x w H <-. apply (unbe_bound x H). Qed.

Lemma be_unbe_w : forall x w, wf x -> length x = w -> be w (unbe x) = x.
Proof. intros x w H <-. apply be_unbe, H. Qed.

Definition room (pre : bytes) : Prop := len pre + 16 < 2^32.

(** A sized signed read after its tag. *)
Lemma get_int_inv : forall w pre tail z d', (0 < w <= 8)%nat -> fits pre tail -> room pre -> wf tail ->
  get_int w (at_ pre tail) = Ret (z, d') ->
  exists rest, tail = be w (Z.to_N (z mod 256 ^ Z.of_nat w)) ++ rest /\
    (- 2 ^ (8 * Z.of_nat w - 1) <= z < 2 ^ (8 * Z.of_nat w - 1))%Z /\
    d' = at_ (pre ++ be w (Z.to_N (z mod 256 ^ Z.of_nat w))) rest.
Proof.
  intros w pre tail z d' W F R Wf H. unfold get_int, rbind in H. unfold room in R.
  destruct (get_cases w pre tail F) as [(x & rest & -> & L & G)|(_ & G)]; [lia|..]; rewrite G in H; [|discriminate].
  unfold rret in H. assert (Ez : z = to_signed (8 * N.of_nat w) (unbe x)) by congruence.
  assert (Ed : d' = at_ (pre ++ x) rest) by congruence. clear H. subst z d'. apply wf_app in Wf as [Wx Wr].
  pose proof (to_signed_range w (unbe x)) as T. destruct T as [T1 T2]; [lia|apply wf_unbe; assumption|].
  exists rest. rewrite T2, be_unbe_w by assumption. auto.
Qed.
Lemma get_inv : forall w pre tail v d', (0 < w <= 8)%nat -> fits pre tail -> room pre -> wf tail ->
  get w (at_ pre tail) = Ret (v, d') ->
  exists rest, tail = be w v ++ rest /\ v < 256 ^ N.of_nat w /\ d' = at_ (pre ++ be w v) rest.
Proof.
  intros w pre tail v d' W F R Wf H. unfold room in R.
  destruct (get_cases w pre tail F) as [(x & rest & -> & L & G)|(_ & G)]; [lia|..]; rewrite G in H; [|discriminate].
  injection H as <- <-. apply wf_app in Wf as [Wx Wr].
  exists rest. rewrite be_unbe_w by assumption. split; [reflexivity|]. split; [apply wf_unbe; assumption|reflexivity].
Qed.

Lemma prefix_cases : forall pre tail, fits pre tail -> room pre -> wf tail ->
  (exists b rest, tail = b :: rest /\ b < 256 /\ wf rest /\ forall A (k : N -> M A), rbind (get 1) k (at_ pre tail) = k b (at_ (pre ++ [b]) rest))
  \/ (tail = [] /\ forall A (k : N -> M A), rbind (get 1) k (at_ pre tail) = Fail (ErrRange, bad pre tail)).
Proof.
  intros pre tail F R Wf. unfold room in R. destruct tail as [|b rest].
  - right. split; [reflexivity|]. intros A k. unfold rbind.
    destruct (get_cases 1 pre [] F) as [(x & rest & E & L & G)|(_ & G)]; [lia|..].
    + destruct x; [discriminate L|discriminate E].
    + rewrite G. reflexivity.
  - left. apply wf_cons in Wf as [Hb Wr]. exists b, rest. repeat split; try assumption.
    intros A k. unfold rbind. pose proof (get1 b pre rest) as G. cbn [app] in G. rewrite G by assumption. reflexivity.
Qed.

Lemma fits_room_step : forall pre b rest, fits pre (b :: rest) -> fits (pre ++ [b]) rest.
Proof. intros. apply (fits_move pre [b] rest). assumption. Qed.

(** Slack for the tag byte: from [len pre + 16] one byte is used. *)
Lemma get_int_inv' : forall w pre b tail z d', (0 < w <= 8)%nat -> fits (pre ++ [b]) tail -> room pre -> wf tail ->
  get_int w (at_ (pre ++ [b]) tail) = Ret (z, d') ->
  exists rest, tail = be w (Z.to_N (z mod 256 ^ Z.of_nat w)) ++ rest /\
    (- 2 ^ (8 * Z.of_nat w - 1) <= z < 2 ^ (8 * Z.of_nat w - 1))%Z /\
    d' = at_ (pre ++ b :: be w (Z.to_N (z mod 256 ^ Z.of_nat w))) rest.
Proof.
  intros w pre b tail z d' W F R Wf H. unfold get_int, rbind in H. unfold room in R.
  destruct (get_cases w (pre ++ [b]) tail F) as [(x & rest & -> & L & G)|(_ & G)];
    [rewrite len_app, len_cons; change (len (@nil N)) with 0; lia|..]; rewrite G in H; [|discriminate].
  unfold rret in H. assert (Ez : z = to_signed (8 * N.of_nat w) (unbe x)) by congruence.
  assert (Ed : d' = at_ ((pre ++ [b]) ++ x) rest) by congruence. clear H. subst z d'. apply wf_app in Wf as [Wx Wr].
  pose proof (to_signed_range w (unbe x)) as T. destruct T as [T1 T2]; [lia|apply wf_unbe; assumption|].
  exists rest. rewrite T2, be_unbe_w by assumption. rewrite <- app_assoc. auto.
Qed.
Lemma get_inv' : forall w pre b tail v d', (0 < w <= 8)%nat -> fits (pre ++ [b]) tail -> room pre -> wf tail ->
  get w (at_ (pre ++ [b]) tail) = Ret (v, d') ->
  exists rest, tail = be w v ++ rest /\ v < 256 ^ N.of_nat w /\ d' = at_ (pre ++ b :: be w v) rest.
Proof.
  intros w pre b tail v d' W F R Wf H. unfold room in R.
  destruct (get_cases w (pre ++ [b]) tail F) as [(x & rest & -> & L & G)|(_ & G)];
    [rewrite len_app, len_cons; change (len (@nil N)) with 0; lia|..]; rewrite G in H; [|discriminate].
  injection H as <- <-. apply wf_app in Wf as [Wx Wr].
  exists rest. rewrite be_unbe_w by assumption. rewrite <- app_assoc.
  split; [reflexivity|]. split; [apply wf_unbe; assumption|reflexivity].
Qed.

Lemma fix_int : forall b, b < 128 \/ 224 <= b < 256 ->
  exists f, signed_fmt f /\ int_range f (to_signed 8 b) /\ int_bytes f (to_signed 8 b) = [b].
Proof.
  intros b H. unfold to_signed. change (2 ^ (8-1)) with 128. change (2 ^ Z.of_N 8)%Z with 256%Z.
  destruct (N.ltb_spec b 128).
  - exists FixPos. cbn [signed_fmt int_range]. split; [exact I|]. split; [lia|].
    unfold int_bytes. cbn [int_tag int_width app]. change (256 ^ Z.of_nat 1)%Z with 256%Z.
    rewrite be1 by lia. f_equal. lia.
  - exists FixNeg. cbn [signed_fmt int_range]. split; [exact I|]. split; [lia|].
    unfold int_bytes. cbn [int_tag int_width app]. change (256 ^ Z.of_nat 1)%Z with 256%Z.
    rewrite be1 by lia. f_equal. lia.
Qed.

Lemma read_int_inv : forall pre tail z d', fits pre tail -> room pre -> wf tail ->
  ReadInt64 (at_ pre tail) = Ret (z, d') ->
  exists f rest, signed_fmt f /\ int_range f z /\ tail = int_bytes f z ++ rest /\ d' = at_ (pre ++ int_bytes f z) rest.
Proof.
  intros pre tail z d' F R Wf H. unfold ReadInt64 in H.
  destruct (prefix_cases pre tail F R Wf) as [(b & rest & -> & Hb & Wr & G)|(-> & G)]; rewrite G in H; clear G; [|discriminate].
  rewrite isFixedInt_range, isNegativeFixedInt_range in H by assumption.
  apply fits_room_step in F.
  destruct ((b <? 128) || (224 <=? b)) eqn:E.
  { unfold rret in H. injection H as <- <-. destruct (fix_int b) as (f & S1 & S2 & S3); [lia|].
    exists f, rest. rewrite S3. auto. }
  destruct (N.eqb_spec b FormatInt8) as [->|].
  { apply get_int_inv' in H as (r & -> & B & ->); [|lia|assumption..]. exists Int8, r.
    change (8 * Z.of_nat 1 - 1)%Z with 7%Z in B. pow_c. repeat split; try exact I; cbn [int_range]; lia. }
  destruct (N.eqb_spec b FormatInt16) as [->|].
  { apply get_int_inv' in H as (r & -> & B & ->); [|lia|assumption..]. exists Int16, r.
    change (8 * Z.of_nat 2 - 1)%Z with 15%Z in B. repeat split; try exact I; cbn [int_range]; lia. }
  destruct (N.eqb_spec b FormatInt32) as [->|].
  { apply get_int_inv' in H as (r & -> & B & ->); [|lia|assumption..]. exists Int32, r.
    change (8 * Z.of_nat 4 - 1)%Z with 31%Z in B. repeat split; try exact I; cbn [int_range]; lia. }
  destruct (N.eqb_spec b FormatInt64) as [->|]; [|discriminate].
  apply get_int_inv' in H as (r & -> & B & ->); [|lia|assumption..]. exists Int64, r.
  change (8 * Z.of_nat 8 - 1)%Z with 63%Z in B. repeat split; try exact I; cbn [int_range]; lia.
Qed.

Lemma nonneg_inv : forall m d v d', nonneg m d = Ret (v, d') ->
  exists z, m d = Ret (z, d') /\ (0 <= z)%Z /\ v = of_signed 64 z.
Proof.
  intros m d v d' H. unfold nonneg, rbind in H. destruct (m d) as [[z d1]|e|]; try discriminate.
  destruct (Z.ltb_spec z 0); [discriminate|]. unfold rret in H. injection H as <- <-. eauto.
Qed.

Lemma of_signed_nn : forall z, (0 <= z < 2^64)%Z -> of_signed 64 z = Z.to_N z.
Proof. intros. unfold of_signed. change (2 ^ Z.of_N 64)%Z with (2^64)%Z. rewrite Z.mod_small by assumption. reflexivity. Qed.

Lemma read_uint_inv : forall pre tail v d', fits pre tail -> room pre -> wf tail ->
  ReadUint64 (at_ pre tail) = Ret (v, d') ->
  exists f rest, int_range f (Z.of_N v) /\ tail = int_bytes f (Z.of_N v) ++ rest /\
    d' = at_ (pre ++ int_bytes f (Z.of_N v)) rest.
Proof.
  intros pre tail v d' F R Wf H. unfold ReadUint64 in H.
  destruct (prefix_cases pre tail F R Wf) as [(b & rest & -> & Hb & Wr & G)|(-> & G)]; rewrite G in H; clear G; [|discriminate].
  rewrite isFixedInt_range, isNegativeFixedInt_range in H by assumption.
  apply fits_room_step in F.
  destruct (N.ltb_spec b 128).
  { unfold rret in H. injection H as <- <-. exists FixPos, rest. cbn [int_range]. split; [lia|].
    unfold int_bytes; cbn [int_tag int_width app]. change (256 ^ Z.of_nat 1)%Z with 256%Z. rewrite be1 by lia.
    replace (Z.to_N (Z.of_N b mod 256)) with b by lia. auto. }
  destruct (N.leb_spec 224 b).
  { apply nonneg_inv in H as (z & H & P & ->). unfold rret in H. injection H as <- <-. exfalso. revert P.
    unfold to_signed. change (2 ^ (8-1)) with 128. change (2 ^ Z.of_N 8)%Z with 256%Z.
    destruct (N.ltb_spec b 128); lia. }
  destruct (N.eqb_spec b FormatUint8) as [->|].
  { apply get_inv' in H as (r & -> & B & ->); [|lia|assumption..]. exists Uint8, r.
    change (256 ^ N.of_nat 1) with 256 in B. cbn [int_range]. pow_c. split; [lia|].
    unfold int_bytes; cbn [int_tag int_width app]. change (256 ^ Z.of_nat 1)%Z with 256%Z.
    replace (Z.to_N (Z.of_N v mod 256)) with v by lia. auto. }
  destruct (N.eqb_spec b FormatUint16) as [->|].
  { apply get_inv' in H as (r & -> & B & ->); [|lia|assumption..]. exists Uint16, r.
    change (256 ^ N.of_nat 2) with 65536 in B. cbn [int_range]. pow_c. split; [lia|].
    unfold int_bytes; cbn [int_tag int_width app]. change (256 ^ Z.of_nat 2)%Z with 65536%Z.
    replace (Z.to_N (Z.of_N v mod 65536)) with v by lia. auto. }
  destruct (N.eqb_spec b FormatUint32) as [->|].
  { apply get_inv' in H as (r & -> & B & ->); [|lia|assumption..]. exists Uint32, r.
    change (256 ^ N.of_nat 4) with 4294967296 in B. cbn [int_range]. pow_c. split; [lia|].
    unfold int_bytes; cbn [int_tag int_width app]. change (256 ^ Z.of_nat 4)%Z with 4294967296%Z.
    replace (Z.to_N (Z.of_N v mod 4294967296)) with v by lia. auto. }
  destruct (N.eqb_spec b FormatUint64) as [->|].
  { apply get_inv' in H as (r & -> & B & ->); [|lia|assumption..]. exists Uint64, r.
    change (256 ^ N.of_nat 8) with 18446744073709551616 in B. cbn [int_range]. pow_c. split; [lia|].
    unfold int_bytes; cbn [int_tag int_width app]. change (256 ^ Z.of_nat 8)%Z with 18446744073709551616%Z.
    replace (Z.to_N (Z.of_N v mod 18446744073709551616)) with v by lia. auto. }
  destruct (N.eqb_spec b FormatInt8) as [->|].
  { apply nonneg_inv in H as (z & H & P & ->).
    apply get_int_inv' in H as (r & -> & B & ->); [|lia|assumption..]. exists Int8, r.
    change (8 * Z.of_nat 1 - 1)%Z with 7%Z in B. pow_c.
    rewrite of_signed_nn by (pow_c; lia). replace (Z.of_N (Z.to_N z)) with z by lia.
    cbn [int_range]. split; [lia|]. auto. }
  destruct (N.eqb_spec b FormatInt16) as [->|].
  { apply nonneg_inv in H as (z & H & P & ->).
    apply get_int_inv' in H as (r & -> & B & ->); [|lia|assumption..]. exists Int16, r.
    change (8 * Z.of_nat 2 - 1)%Z with 15%Z in B.
    rewrite of_signed_nn by (pow_c; lia). replace (Z.of_N (Z.to_N z)) with z by lia.
    cbn [int_range]. split; [lia|]. auto. }
  destruct (N.eqb_spec b FormatInt32) as [->|].
  { apply nonneg_inv in H as (z & H & P & ->).
    apply get_int_inv' in H as (r & -> & B & ->); [|lia|assumption..]. exists Int32, r.
    change (8 * Z.of_nat 4 - 1)%Z with 31%Z in B.
    rewrite of_signed_nn by (pow_c; lia). replace (Z.of_N (Z.to_N z)) with z by lia.
    cbn [int_range]. split; [lia|]. auto. }
  destruct (N.eqb_spec b FormatInt64) as [->|]; [|discriminate].
  apply nonneg_inv in H as (z & H & P & ->).
  apply get_int_inv' in H as (r & -> & B & ->); [|lia|assumption..]. exists Int64, r.
  change (8 * Z.of_nat 8 - 1)%Z with 63%Z in B.
  rewrite of_signed_nn by (pow_c; lia). replace (Z.of_N (Z.to_N z)) with z by lia.
  cbn [int_range]. split; [lia|]. auto.
Qed.

Lemma read_intN_inv : forall lo hi d z d', ReadIntN lo hi d = Ret (z, d') <-> ReadInt64 d = Ret (z, d') /\ (lo <= z <= hi)%Z.
Proof.
  intros. unfold ReadIntN, rbind. destruct (ReadInt64 d) as [[v d1]|e|].
  - destruct ((v <=? hi)%Z && (lo <=? v)%Z) eqn:E; unfold rret, rfail.
    + split; [intro H; injection H as <- <-; split; [reflexivity|lia]|intros [H B]; injection H as <- <-; reflexivity].
    + split; [discriminate|intros [H B]; injection H as <- <-; lia].
  - split; [discriminate|intros [H _]; discriminate].
  - split; [discriminate|intros [H _]; discriminate].
Qed.
Lemma read_uintN_inv : forall hi d z d', ReadUintN hi d = Ret (z, d') <-> ReadUint64 d = Ret (z, d') /\ z <= hi.
Proof.
  intros. unfold ReadUintN, rbind. destruct (ReadUint64 d) as [[v d1]|e|].
  - destruct (N.leb_spec v hi) as [E|E]; unfold rret, rfail.
    + split; [intro H; injection H as <- <-; split; [reflexivity|lia]|intros [H B]; injection H as <- <-; reflexivity].
    + split; [discriminate|intros [H B]; injection H as <- <-; lia].
  - split; [discriminate|intros [H _]; discriminate].
  - split; [discriminate|intros [H _]; discriminate].
Qed.
