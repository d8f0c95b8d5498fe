(** Scalars, strings, byte strings, headers, times: what is written and how it is read back. *)
From Coq Require Import List NArith ZArith Lia Bool ZifyBool ZifyNat ZifyN.
From Verif Require Import Base BaseLemmas OperationsModel MsgpackModel MsgpackSpec MsgpackIOProofs.
Import ListNotations.
Open Scope N_scope.
Ltac Zify.zify_post_hook ::= Z.div_mod_to_equations.

(** ** Prefix bytes *)
Lemma all_bytes : forall P : N -> bool, forallb (fun i => P (N.of_nat i)) (seq 0 256) = true ->
  forall b, b < 256 -> P b = true.
Proof.
  intros P H b Hb. rewrite forallb_forall in H.
  replace b with (N.of_nat (N.to_nat b)) by lia. apply H. apply in_seq. lia.
Qed.
Ltac byte_table P := apply eqb_prop; apply (all_bytes P); [vm_compute; reflexivity|assumption].
Lemma isFixedInt_range : forall b, b < 256 -> isFixedInt b = (b <? 128).
Proof. intros b H. byte_table (fun b => Bool.eqb (isFixedInt b) (b <? 128)). Qed.
Lemma isNegativeFixedInt_range : forall b, b < 256 -> isNegativeFixedInt b = (224 <=? b).
Proof. intros b H. byte_table (fun b => Bool.eqb (isNegativeFixedInt b) (224 <=? b)). Qed.
Lemma isFixedMap_range : forall b, b < 256 -> isFixedMap b = (128 <=? b) && (b <? 144).
Proof. intros b H. byte_table (fun b => Bool.eqb (isFixedMap b) ((128 <=? b) && (b <? 144))). Qed.
Lemma isFixedArray_range : forall b, b < 256 -> isFixedArray b = (144 <=? b) && (b <? 160).
Proof. intros b H. byte_table (fun b => Bool.eqb (isFixedArray b) ((144 <=? b) && (b <? 160))). Qed.
Lemma isFixedString_range : forall b, b < 256 -> isFixedString b = (160 <=? b) && (b <? 192).
Proof. intros b H. byte_table (fun b => Bool.eqb (isFixedString b) ((160 <=? b) && (b <? 192))). Qed.
Lemma land_1f : forall b, N.land b 0x1f = b mod 32.
Proof. intro. change 0x1f with (2^5 - 1). apply land_ones_mod. Qed.
Lemma land_0f : forall b, N.land b 0x0f = b mod 16.
Proof. intro. change 0x0f with (2^4 - 1). apply land_ones_mod. Qed.

(** Evaluate the prefix tests on a known byte. *)
Ltac fmt := unfold FormatFixMap, FormatFixArray, FormatFixString, FormatNil, FormatFalse, FormatTrue, FormatBin8,
  FormatBin16, FormatBin32, FormatExt8, FormatExt16, FormatExt32, FormatFloat32, FormatFloat64, FormatUint8,
  FormatUint16, FormatUint32, FormatUint64, FormatInt8, FormatInt16, FormatInt32, FormatInt64, FormatFixExt1,
  FormatFixExt2, FormatFixExt4, FormatFixExt8, FormatFixExt16, FormatString8, FormatString16, FormatString32,
  FormatArray16, FormatArray32, FormatMap16, FormatMap32, FormatNegativeFixInt in *.

Lemma unbe1 : forall b, unbe [b] = b.
Proof. intro b. unfold unbe; cbn [fold_left]. rewrite N.shiftl_0_l. apply N.lor_0_l. Qed.

Lemma be1 : forall v, v < 256 -> be 1 v = [v].
Proof. intros v H. cbn [be]. rewrite N.shiftr_0_r, N.mod_small by assumption. reflexivity. Qed.

Lemma get1 : forall b, reads (get 1) [b] b.
Proof. intros b. rewrite <- (unbe1 b) at 2. apply get_step. reflexivity. Qed.
Lemma get_be_step : forall w v, v < 256 ^ N.of_nat w -> reads (get w) (be w v) v.
Proof. intros w v H. rewrite <- (unbe_be_small w v) at 2 by assumption. apply get_step, be_length. Qed.

(** Read one prefix byte, then continue. *)
Lemma reads_prefix : forall {A} (k : N -> M A) b bs a, reads (k b) bs a -> reads (rbind (get 1) k) (b :: bs) a.
Proof. intros. change (b :: bs) with ([b] ++ bs). eapply reads_bind; [apply get1|assumption]. Qed.

(** ** Integers *)
Lemma of_signed_spec : forall k z, of_signed (8 * N.of_nat k) z = Z.to_N (z mod 256 ^ Z.of_nat k).
Proof.
  intros. unfold of_signed. rewrite N2Z.inj_mul, nat_N_Z, Z.pow_mul_r by lia. reflexivity.
Qed.

Lemma write_uint_writes : forall n, n < 2^64 -> writes (WriteUint64 n) (int_bytes (short_unsigned n) (Z.of_N n)).
Proof.
  intros n H. change (2^64) with 18446744073709551616 in H. unfold WriteUint64, short_unsigned.
  change (2^7) with 128. change (2^8) with 256. change (2^16) with 65536. change (2^32) with 4294967296.
  unfold int_bytes, u8, u16, u32.
  destruct (N.ltb_spec n 128).
  { cbn [int_tag int_width app]. replace (Z.to_N (Z.of_N n mod 256 ^ Z.of_nat 1)) with (n mod 2^8).
    - apply set_uint_writes.
    - change (256 ^ Z.of_nat 1)%Z with 256%Z. change (2^8) with 256. lia. }
  destruct (N.leb_spec n 255).
  { destruct (N.ltb_spec n 256); [|lia]. cbn [int_tag int_width].
    apply writes_seq; [change [0xcc] with (be 1 0xcc); apply set_uint_writes|].
    replace (Z.to_N (Z.of_N n mod 256 ^ Z.of_nat 1)) with (n mod 2^8).
    - apply set_uint_writes.
    - change (256 ^ Z.of_nat 1)%Z with 256%Z. change (2^8) with 256. lia. }
  destruct (N.ltb_spec n 256); [lia|].
  destruct (N.leb_spec n 65535).
  { destruct (N.ltb_spec n 65536); [|lia]. cbn [int_tag int_width].
    apply writes_seq; [change [0xcd] with (be 1 0xcd); apply set_uint_writes|].
    replace (Z.to_N (Z.of_N n mod 256 ^ Z.of_nat 2)) with (n mod 2^16).
    - apply set_uint_writes.
    - change (256 ^ Z.of_nat 2)%Z with 65536%Z. change (2^16) with 65536. lia. }
  destruct (N.ltb_spec n 65536); [lia|].
  destruct (N.leb_spec n 4294967295).
  { destruct (N.ltb_spec n 4294967296); [|lia]. cbn [int_tag int_width].
    apply writes_seq; [change [0xce] with (be 1 0xce); apply set_uint_writes|].
    replace (Z.to_N (Z.of_N n mod 256 ^ Z.of_nat 4)) with (n mod 2^32).
    - apply set_uint_writes.
    - change (256 ^ Z.of_nat 4)%Z with 4294967296%Z. change (2^32) with 4294967296. lia. }
  destruct (N.ltb_spec n 4294967296); [lia|]. cbn [int_tag int_width].
  apply writes_seq; [change [0xcf] with (be 1 0xcf); apply set_uint_writes|].
  replace (Z.to_N (Z.of_N n mod 256 ^ Z.of_nat 8)) with n.
  - apply set_uint_writes.
  - change (256 ^ Z.of_nat 8)%Z with 18446744073709551616%Z. lia.
Qed.

Lemma set_int_writes : forall k z, writes (set_int k z) (be k (Z.to_N (z mod 256 ^ Z.of_nat k))).
Proof. intros. unfold set_int. rewrite of_signed_spec. apply set_fix_writes. Qed.

Lemma negfix_lor : forall z, (-32 <= z < 0)%Z -> N.lor (of_signed 8 z) 0xe0 = Z.to_N (z mod 256).
Proof.
  intros z H. change 8 with (8 * N.of_nat 1). rewrite of_signed_spec. change (256 ^ Z.of_nat 1)%Z with 256%Z.
  assert (E : Z.to_N (z mod 256) = 7 * 2^5 + Z.to_N (z + 32)) by (change (2^5) with 32; lia).
  rewrite E.
  rewrite <- (lor_add 7 (Z.to_N (z + 32)) 5) by (change (2^5) with 32; lia).
  rewrite N.lor_comm, N.lor_assoc. reflexivity.
Qed.

Ltac pow_c := change (2^15)%Z with 32768%Z in *; change (2^31)%Z with 2147483648%Z in *;
  change (2^63)%Z with 9223372036854775808%Z in *; change (2^8)%Z with 256%Z in *;
  change (2^16)%Z with 65536%Z in *; change (2^32)%Z with 4294967296%Z in *;
  change (2^64)%Z with 18446744073709551616%Z in *; change (2^7)%Z with 128%Z in *.

Ltac zcases := repeat match goal with |- context [Z.ltb ?a ?b] => destruct (Z.ltb_spec a b) end.

Lemma write_int_writes : forall z, (-2^63 <= z < 2^63)%Z -> writes (WriteInt64 z) (int_bytes (short_signed z) z).
Proof.
  intros z H. unfold WriteInt64.
  change (-(2^5))%Z with (-32)%Z. pow_c. change (- (9223372036854775808))%Z with (-9223372036854775808)%Z in H.
  destruct ((0 <=? z)%Z && (z <? 128)%Z) eqn:E1.
  { assert (E : short_signed z = FixPos) by (unfold short_signed; pow_c; zcases; reflexivity || lia).
    rewrite E. apply (set_int_writes 1). }
  destruct ((z <? 0)%Z && (-32 <=? z)%Z) eqn:E2.
  { assert (E : short_signed z = FixNeg) by (unfold short_signed; pow_c; zcases; reflexivity || lia).
    rewrite E. unfold FormatNegativeFixInt. rewrite negfix_lor by lia. apply (set_uint_writes 1). }
  destruct ((z <=? 127)%Z && (-128 <=? z)%Z) eqn:E3.
  { assert (E : short_signed z = Int8) by (unfold short_signed; pow_c; zcases; reflexivity || lia).
    rewrite E. apply writes_seq; [change [0xd0] with (be 1 0xd0); apply (set_uint_writes 1 0xd0)|apply set_int_writes]. }
  destruct ((z <=? 32767)%Z && (-32768 <=? z)%Z) eqn:E4.
  { assert (E : short_signed z = Int16) by (unfold short_signed; pow_c; zcases; reflexivity || lia).
    rewrite E. apply writes_seq; [apply (set_uint_writes 1 0xd1)|apply set_int_writes]. }
  destruct ((z <=? 2147483647)%Z && (-2147483648 <=? z)%Z) eqn:E5.
  { assert (E : short_signed z = Int32) by (unfold short_signed; pow_c; zcases; reflexivity || lia).
    rewrite E. apply writes_seq; [apply (set_uint_writes 1 0xd2)|apply set_int_writes]. }
  assert (E : short_signed z = Int64) by (unfold short_signed; pow_c; zcases; reflexivity || lia).
  rewrite E. apply writes_seq; [apply (set_uint_writes 1 0xd3)|apply set_int_writes].
Qed.

Lemma get_int_be : forall k z, (0 < k)%nat -> (- 2 ^ (8 * Z.of_nat k - 1) <= z < 2 ^ (8 * Z.of_nat k - 1))%Z ->
  reads (get_int k) (be k (Z.to_N (z mod 256 ^ Z.of_nat k))) z.
Proof.
  intros k z K H. rewrite <- of_signed_spec.
  rewrite <- (to_of_signed k z) at 2 by assumption.
  rewrite <- (unbe_of_signed k z) at 2. apply get_int_step, be_length.
Qed.

Lemma read_int_reads : forall f z, signed_fmt f -> int_range f z -> reads ReadInt64 (int_bytes f z) z.
Proof.
  intros f z S R. unfold int_bytes, ReadInt64.
  destruct f; cbn [signed_fmt] in S; try contradiction; cbn [int_range] in R; cbn [int_tag int_width app].
  - change (256 ^ Z.of_nat 1)%Z with 256%Z. rewrite be1 by lia. apply reads_prefix.
    rewrite isFixedInt_range by lia. destruct (N.ltb_spec (Z.to_N (z mod 256)) 128); [|lia]. cbn [orb].
    replace (to_signed 8 (Z.to_N (z mod 256))) with z; [apply reads_ret|].
    unfold to_signed. change (2 ^ (8-1)) with 128. destruct (N.ltb_spec (Z.to_N (z mod 256)) 128); lia.
  - change (256 ^ Z.of_nat 1)%Z with 256%Z. rewrite be1 by lia. apply reads_prefix.
    rewrite isFixedInt_range, isNegativeFixedInt_range by lia.
    destruct (N.ltb_spec (Z.to_N (z mod 256)) 128); [lia|].
    destruct (N.leb_spec 224 (Z.to_N (z mod 256))); [|lia]. cbn [orb].
    replace (to_signed 8 (Z.to_N (z mod 256))) with z; [apply reads_ret|].
    unfold to_signed. change (2 ^ (8-1)) with 128. change (2 ^ Z.of_N 8)%Z with 256%Z.
    destruct (N.ltb_spec (Z.to_N (z mod 256)) 128); lia.
  - apply reads_prefix. apply (get_int_be 1); [lia|]. change (2 ^ (8 * Z.of_nat 1 - 1))%Z with 128%Z. lia.
  - apply reads_prefix. apply (get_int_be 2); [lia|]. pow_c. change (2 ^ (8 * Z.of_nat 2 - 1))%Z with 32768%Z. lia.
  - apply reads_prefix. apply (get_int_be 4); [lia|]. pow_c. change (2 ^ (8 * Z.of_nat 4 - 1))%Z with 2147483648%Z. lia.
  - apply reads_prefix. apply (get_int_be 8); [lia|]. pow_c. change (2 ^ (8 * Z.of_nat 8 - 1))%Z with 9223372036854775808%Z. lia.
Qed.

Lemma nonneg_reads : forall m bs z, reads m bs z -> (0 <= z < 2^64)%Z -> reads (nonneg m) bs (Z.to_N z).
Proof.
  intros m bs z H B. unfold nonneg. apply reads_bind0 with (a := z); [assumption|].
  destruct (Z.ltb_spec z 0); [lia|].
  replace (of_signed 64 z) with (Z.to_N z); [apply reads_ret|].
  unfold of_signed. change (2 ^ Z.of_N 64)%Z with (2^64)%Z. rewrite Z.mod_small by assumption. reflexivity.
Qed.

Lemma read_uint_reads : forall f z, int_range f z -> (0 <= z)%Z -> reads ReadUint64 (int_bytes f z) (Z.to_N z).
Proof.
  intros f z R P. unfold int_bytes, ReadUint64.
  destruct f; cbn [int_range] in R; cbn [int_tag int_width app].
  - change (256 ^ Z.of_nat 1)%Z with 256%Z. rewrite be1 by lia. apply reads_prefix.
    rewrite isFixedInt_range by lia. destruct (N.ltb_spec (Z.to_N (z mod 256)) 128); [|lia].
    rewrite Z.mod_small by lia. apply reads_ret.
  - lia.
  - apply reads_prefix. apply nonneg_reads; [|lia].
    apply (get_int_be 1); [lia|]. change (2 ^ (8 * Z.of_nat 1 - 1))%Z with 128%Z. lia.
  - apply reads_prefix. apply nonneg_reads; [|pow_c; lia].
    apply (get_int_be 2); [lia|]. pow_c. change (2 ^ (8 * Z.of_nat 2 - 1))%Z with 32768%Z. lia.
  - apply reads_prefix. apply nonneg_reads; [|pow_c; lia].
    apply (get_int_be 4); [lia|]. pow_c. change (2 ^ (8 * Z.of_nat 4 - 1))%Z with 2147483648%Z. lia.
  - apply reads_prefix. apply nonneg_reads; [|pow_c; lia].
    apply (get_int_be 8); [lia|]. pow_c. change (2 ^ (8 * Z.of_nat 8 - 1))%Z with 9223372036854775808%Z. lia.
  - apply reads_prefix. change (256 ^ Z.of_nat 1)%Z with 256%Z. pow_c.
    rewrite Z.mod_small by lia. apply (get_be_step 1). change (256 ^ N.of_nat 1) with 256. lia.
  - apply reads_prefix. change (256 ^ Z.of_nat 2)%Z with 65536%Z. pow_c.
    rewrite Z.mod_small by lia. apply (get_be_step 2). change (256 ^ N.of_nat 2) with 65536. lia.
  - apply reads_prefix. change (256 ^ Z.of_nat 4)%Z with 4294967296%Z. pow_c.
    rewrite Z.mod_small by lia. apply (get_be_step 4). change (256 ^ N.of_nat 4) with 4294967296. lia.
  - apply reads_prefix. change (256 ^ Z.of_nat 8)%Z with 18446744073709551616%Z. pow_c.
    rewrite Z.mod_small by lia. apply (get_be_step 8). change (256 ^ N.of_nat 8) with 18446744073709551616. lia.
Qed.

Lemma short_signed_range : forall z, (-2^63 <= z < 2^63)%Z -> signed_fmt (short_signed z) /\ int_range (short_signed z) z.
Proof.
  intros z H. unfold short_signed. pow_c.
  repeat match goal with |- context [Z.ltb ?a ?b] => destruct (Z.ltb_spec a b) end;
  cbn [signed_fmt int_range]; pow_c; split; try exact I; lia.
Qed.
Lemma short_unsigned_range : forall n, n < 2^64 ->
  unsigned_fmt (short_unsigned n) /\ int_range (short_unsigned n) (Z.of_N n).
Proof.
  intros n H. unfold short_unsigned. change (2^8) with 256. change (2^16) with 65536. change (2^32) with 4294967296.
  change (2^64) with 18446744073709551616 in H.
  repeat match goal with |- context [N.ltb ?a ?b] => destruct (N.ltb_spec a b) end;
  cbn [unsigned_fmt int_range]; pow_c; split; try exact I; lia.
Qed.

Lemma read_intN_reads : forall lo hi f z, signed_fmt f -> int_range f z -> (lo <= z <= hi)%Z ->
  reads (ReadIntN lo hi) (int_bytes f z) z.
Proof.
  intros lo hi f z S R B. unfold ReadIntN. apply reads_bind0 with (a := z); [apply read_int_reads; assumption|].
  replace ((z <=? hi)%Z && (lo <=? z)%Z) with true by lia. apply reads_ret.
Qed.
Lemma read_uintN_reads : forall hi f z, int_range f z -> (0 <= z)%Z -> Z.to_N z <= hi ->
  reads (ReadUintN hi) (int_bytes f z) (Z.to_N z).
Proof.
  intros hi f z R P B. unfold ReadUintN. apply reads_bind0 with (a := Z.to_N z); [apply read_uint_reads; assumption|].
  destruct (N.leb_spec (Z.to_N z) hi); [|lia]. apply reads_ret.
Qed.

(** ** Strings, byte strings, sizes *)
Ltac pow_n := change (2^8) with 256 in *; change (2^16) with 65536 in *; change (2^32) with 4294967296 in *;
  change (2^64) with 18446744073709551616 in *.

Lemma lor_hi : forall n k hi, n < 2^k -> N.lor n (hi * 2^k) = hi * 2^k + n.
Proof. intros. rewrite N.lor_comm. apply lor_add. assumption. Qed.

Lemma be_head_writes : forall t w n, t < 256 -> writes (wseq (set_uint 1 t) (set_uint w n)) (t :: be w n).
Proof.
  intros t w n H. change (t :: be w n) with ([t] ++ be w n). apply writes_seq; [|apply set_uint_writes].
  rewrite <- (be1 t) by assumption. apply set_uint_writes.
Qed.

Lemma u_small : forall n, (n < 256 -> u8 n = n) /\ (n < 65536 -> u16 n = n) /\ (n < 4294967296 -> u32 n = n).
Proof. intro n. unfold u8, u16, u32. pow_n. repeat split; intro; apply N.mod_small; assumption. Qed.

Lemma str_len_writes : forall n, n < 2^32 -> writes (writeStringLength n) (str_head (short_len 32 true n) n).
Proof.
  intros n H. unfold writeStringLength, short_len. cbn [andb]. pow_n.
  destruct (u_small n) as (U1 & U2 & U3).
  destruct (N.ltb_spec n 32).
  { rewrite U1 by lia. unfold FormatFixString. change 0xa0 with (5 * 2^5). rewrite (lor_hi n 5 5) by (change (2^5) with 32; lia).
    cbn [str_head]. rewrite <- be1 by (change (2^5) with 32; lia). apply set_uint_writes. }
  destruct (N.leb_spec n 255); destruct (N.ltb_spec n 256); try lia.
  { rewrite U1 by lia. apply be_head_writes. reflexivity. }
  destruct (N.leb_spec n 65535); destruct (N.ltb_spec n 65536); try lia.
  { rewrite U2 by lia. apply be_head_writes. reflexivity. }
  apply be_head_writes. reflexivity.
Qed.

Lemma arr_len_writes : forall n, n < 2^32 -> writes (WriteArraySize n) (arr_head (short_len 16 false n) n).
Proof.
  intros n H. unfold WriteArraySize, short_len. cbn [andb]. pow_n.
  destruct (u_small n) as (U1 & U2 & U3).
  destruct (N.ltb_spec n 16).
  { rewrite U1 by lia. unfold FormatFixArray. change 0x90 with (9 * 2^4). rewrite (lor_hi n 4 9) by (change (2^4) with 16; lia).
    cbn [arr_head]. rewrite <- be1 by (change (2^4) with 16; lia). apply set_uint_writes. }
  destruct (N.leb_spec n 65535); destruct (N.ltb_spec n 65536); try lia.
  { rewrite U2 by lia. apply be_head_writes. reflexivity. }
  apply be_head_writes. reflexivity.
Qed.

Lemma map_len_writes : forall n, n < 2^32 -> writes (WriteMapSize n) (map_head (short_len 16 false n) n).
Proof.
  intros n H. unfold WriteMapSize, short_len. cbn [andb]. pow_n.
  destruct (u_small n) as (U1 & U2 & U3).
  destruct (N.ltb_spec n 16).
  { rewrite U1 by lia. unfold FormatFixMap. change 0x80 with (8 * 2^4). rewrite (lor_hi n 4 8) by (change (2^4) with 16; lia).
    cbn [map_head]. rewrite <- be1 by (change (2^4) with 16; lia). apply set_uint_writes. }
  destruct (N.leb_spec n 65535); destruct (N.ltb_spec n 65536); try lia.
  { rewrite U2 by lia. apply be_head_writes. reflexivity. }
  apply be_head_writes. reflexivity.
Qed.

Lemma bin_len_writes : forall n, n < 2^32 -> writes (writeBinLength n) (bin_head (short_len 0 true n) n).
Proof.
  intros n H. unfold writeBinLength, short_len. cbn [andb]. pow_n.
  destruct (u_small n) as (U1 & U2 & U3).
  destruct (N.ltb_spec n 0); [lia|].
  destruct (N.leb_spec n 255); destruct (N.ltb_spec n 256); try lia.
  { rewrite U1 by lia. apply be_head_writes. reflexivity. }
  destruct (N.leb_spec n 65535); destruct (N.ltb_spec n 65536); try lia.
  { rewrite U2 by lia. apply be_head_writes. reflexivity. }
  apply be_head_writes. reflexivity.
Qed.

Lemma write_string_writes : forall s, len s < 2^32 ->
  writes (WriteString s) (mv_bytes (MStr (short_len 32 true (len s)) s)).
Proof.
  intros s H. unfold WriteString. rewrite u32_small by assumption. cbn [mv_bytes].
  apply writes_seq; [apply str_len_writes|apply set_bytes_writes]; assumption.
Qed.
Lemma write_bytes_writes : forall s, len s < 2^32 ->
  writes (WriteByteArray s) (mv_bytes (MBin (short_len 0 true (len s)) s)).
Proof.
  intros s H. unfold WriteByteArray. rewrite u32_small by assumption. cbn [mv_bytes].
  destruct (N.eqb_spec (len s) 0) as [E|E].
  - apply len_0 in E. subst s. change (len (@nil N)) with 0. rewrite app_nil_r.
    apply (be_head_writes 0xc4 1 0). reflexivity.
  - apply writes_seq; [apply bin_len_writes|apply set_bytes_writes]; assumption.
Qed.

(** ** Times *)
Lemma encodeTime_spec : forall t, time_ok t -> encodeTime t = time_data t.
Proof.
  intros [s n] [Hs Hn]. cbn [t_sec t_nsec] in *. unfold encodeTime, time_data. cbn [t_sec t_nsec].
  unfold of_signed. change (2 ^ Z.of_N 64)%Z with (2^64)%Z. rewrite N.shiftr_div_pow2.
  rewrite N.shiftl_mul_pow2.
  change (2^34) with 17179869184. pow_c. change (2^34)%Z with 17179869184%Z.
  destruct ((0 <=? s)%Z && (s <? 17179869184)%Z) eqn:E.
  - rewrite (Z.mod_small s) by lia.
    replace (Z.to_N s / 17179869184 =? 0) with true by lia.
    unfold u64. pow_n. rewrite (N.mod_small (n * 17179869184)) by lia.
    change 17179869184 with (2^34). rewrite lor_add by (change (2^34) with 17179869184; lia).
    change (2^34) with 17179869184.
    assert (X : N.land (n * 17179869184 + Z.to_N s) 0xffffffff00000000 =
                (n * 17179869184 + Z.to_N s) / 4294967296 * 4294967296).
    { set (v := n * 17179869184 + Z.to_N s).
      change 0xffffffff00000000 with (N.shiftl (N.ones 32) 32).
      apply N.bits_inj. intro i. rewrite N.land_spec.
      change 4294967296 with (2^32). rewrite <- N.shiftl_mul_pow2, <- N.shiftr_div_pow2.
      destruct (N.ltb_spec i 32).
      - rewrite !N.shiftl_spec_low by assumption. apply andb_false_r.
      - rewrite !N.shiftl_spec_high' by assumption. rewrite N.shiftr_spec'.
        replace (i - 32 + 32) with i by lia.
        destruct (N.ltb_spec (i - 32) 32).
        + rewrite N.ones_spec_low by assumption. apply andb_true_r.
        + rewrite N.ones_spec_high by assumption. rewrite andb_false_r.
          destruct (N.eq_dec v 0) as [V0|V0]; [rewrite V0; symmetry; apply N.bits_0|].
          symmetry. apply N.bits_above_log2.
          assert (v < 2^64) by (unfold v; pow_n; lia).
          apply N.lt_le_trans with 64; [|lia]. apply N.log2_lt_pow2; lia. }
    rewrite X.
    destruct ((0 <=? s)%Z && (s <? 4294967296)%Z && (n =? 0)) eqn:E2.
    + assert (n = 0) by lia. subst n. rewrite N.mul_0_l, N.add_0_l.
      replace (Z.to_N s / 4294967296 * 4294967296 =? 0) with true by lia.
      rewrite u32_small by (pow_n; lia). reflexivity.
    + replace ((n * 17179869184 + Z.to_N s) / 4294967296 * 4294967296 =? 0) with false by lia.
      reflexivity.
  - replace (Z.to_N (s mod 18446744073709551616) / 17179869184 =? 0) with false by lia.
    replace ((0 <=? s)%Z && (s <? 4294967296)%Z && (n =? 0)) with false by lia.
    rewrite u32_small by (pow_n; lia). reflexivity.
Qed.

Lemma time_data_len : forall t, len (time_data t) = 4 \/ len (time_data t) = 8 \/ len (time_data t) = 12.
Proof.
  intro t. unfold time_data.
  destruct (_ && _ && _); [left; apply be_len|].
  destruct (_ && _); [right; left; apply be_len|]. right; right. rewrite len_app, !be_len. reflexivity.
Qed.

Lemma write_time_writes : forall t, time_ok t -> writes (WriteTime t) (mv_bytes (scal_mv (STime t))).
Proof.
  intros t H. unfold WriteTime. rewrite encodeTime_spec by assumption. cbn [scal_mv mv_bytes].
  assert (X : writes (wseq (set_int 1 (-1)) (set_bytes (time_data t))) ([255] ++ time_data t)).
  { apply writes_seq; [apply (set_int_writes 1)|]. apply set_bytes_writes.
    pow_n. destruct (time_data_len t) as [E|[E|E]]; lia. }
  apply writes_seq; [|exact X].
  destruct (time_data_len t) as [E|[E|E]]; rewrite E.
  - cbn. apply (set_uint_writes 1 0xd6).
  - cbn. apply (set_uint_writes 1 0xd7).
  - cbn. apply set_bytes_writes. reflexivity.
Qed.

Lemma time_unix_id : forall s n, (-2^63 <= s < 2^63)%Z -> n < 1000000000 -> time_unix s n = mkTime s n.
Proof.
  intros s n Hs Hn. unfold time_unix. rewrite N.div_small, N.mod_small by assumption. f_equal.
  rewrite Z.add_0_r. change 64 with (8 * N.of_nat 8). apply to_of_signed; [lia|].
  change (8 * Z.of_nat 8 - 1)%Z with 63%Z. assumption.
Qed.

Lemma decode_time_reads : forall t n, time_ok t -> n = len (time_data t) -> reads (decodeTime n) (time_data t) t.
Proof.
  intros [s ns] n [Hs Hn] ->. cbn [t_sec t_nsec] in *. unfold decodeTime.
  apply reads_bind0 with (a := time_data (mkTime s ns)); [apply get_bytes_step; reflexivity|].
  unfold time_data; cbn [t_sec t_nsec].
  destruct ((0 <=? s)%Z && (s <? 2^32)%Z && (ns =? 0)) eqn:E1.
  { rewrite be_len. cbn [N.eqb Pos.eqb N.of_nat Pos.of_succ_nat Pos.succ].
    rewrite unbe_be_small by (change (256 ^ N.of_nat 4) with 4294967296; pow_c; lia).
    rewrite time_unix_id by (pow_c; lia).
    replace (Z.of_N (Z.to_N s)) with s by lia. replace ns with 0 by lia. apply reads_ret. }
  destruct ((0 <=? s)%Z && (s <? 2^34)%Z) eqn:E2.
  { change (2^34)%Z with 17179869184%Z in E2. change (2^34) with 17179869184.
    rewrite be_len. cbn [N.eqb Pos.eqb N.of_nat Pos.of_succ_nat Pos.succ].
    assert (B : ns * 17179869184 + Z.to_N s < 256 ^ N.of_nat 8) by (change (256 ^ N.of_nat 8) with 18446744073709551616; lia).
    rewrite unbe_be_small by exact B.
    rewrite N.shiftr_div_pow2. change 0x3ffffffff with (2^34 - 1). rewrite land_ones_mod.
    change (2^34) with 17179869184.
    replace ((ns * 17179869184 + Z.to_N s) mod 17179869184) with (Z.to_N s) by lia.
    replace ((ns * 17179869184 + Z.to_N s) / 17179869184) with ns by lia.
    replace (to_signed 64 (Z.to_N s)) with s.
    - rewrite time_unix_id by assumption. apply reads_ret.
    - unfold to_signed. change (2^(64-1)) with 9223372036854775808.
      destruct (N.ltb_spec (Z.to_N s) 9223372036854775808); lia. }
  rewrite len_app, !be_len. cbn [N.add Pos.add Pos.succ N.eqb Pos.eqb N.of_nat Pos.of_succ_nat].
  rewrite skipn_len_app by (rewrite be_length; reflexivity).
  rewrite firstn_len_app by (rewrite be_length; reflexivity).
  rewrite (unbe_be_small 4) by (change (256 ^ N.of_nat 4) with 4294967296; lia).
  rewrite unbe_be_small by (change (256 ^ N.of_nat 8) with 18446744073709551616; pow_c; lia).
  replace (to_signed 64 (Z.to_N (s mod 2 ^ 64))) with s.
  - rewrite time_unix_id by assumption. apply reads_ret.
  - symmetry. change 64 with (8 * N.of_nat 8).
    pose proof (to_of_signed 8 s) as X. unfold of_signed in X. change (2 ^ Z.of_N (8 * N.of_nat 8))%Z with (2^64)%Z in X.
    change (2 ^ Z.of_N (8 * N.of_nat 8))%Z with (2^64)%Z.
    apply X; [lia|]. change (8 * Z.of_nat 8 - 1)%Z with 63%Z. assumption.
Qed.

Lemma reads_peek : forall {A} (k : N -> M A) b bs a, reads (k b) (b :: bs) a -> reads (rbind peek8 k) (b :: bs) a.
Proof.
  intros A k b bs a H pre rest F. unfold rbind. cbn [app] in *. rewrite peek8_at by assumption. apply H. exact F.
Qed.

Lemma read_time_reads : forall pt t, time_ok t -> reads (ReadTime pt) (mv_bytes (scal_mv (STime t))) t.
Proof.
  intros pt t H. unfold ReadTime. cbn [scal_mv mv_bytes].
  assert (X : forall n, n = len (time_data t) -> reads (let! id := get 1 in rret (to_signed 8 id, n)) [255] ((-1)%Z, n)).
  { intros n _. apply reads_bind0 with (a := 255); [apply get1|]. apply reads_ret. }
  destruct (time_data_len t) as [E|[E|E]]; rewrite E.
  - cbn [N.eqb Pos.eqb ext_head app]. apply reads_peek.
    cbn [isString isFixedString isFixedArray N.land N.eqb Pos.eqb].
    replace (isString 214) with false by reflexivity.
    change (214 :: 255 :: time_data t) with ([214] ++ 255 :: time_data t).
    apply reads_bind with (a := tt); [apply ign_step, discard_step; reflexivity|].
    change (255 :: time_data t) with ([255] ++ time_data t).
    apply reads_bind with (a := ((-1)%Z, 4)); [apply (X 4); lia|]. cbn [Z.eqb Pos.eqb negb andb].
    apply decode_time_reads; [assumption|lia].
  - cbn [N.eqb Pos.eqb ext_head app]. apply reads_peek.
    replace (isString 215) with false by reflexivity.
    change (215 :: 255 :: time_data t) with ([215] ++ 255 :: time_data t).
    apply reads_bind with (a := tt); [apply ign_step, discard_step; reflexivity|].
    change (255 :: time_data t) with ([255] ++ time_data t).
    apply reads_bind with (a := ((-1)%Z, 8)); [apply (X 8); lia|]. cbn [Z.eqb Pos.eqb negb andb].
    apply decode_time_reads; [assumption|lia].
  - cbn [N.eqb Pos.eqb ext_head app]. rewrite be1 by reflexivity. cbn [app]. apply reads_peek.
    replace (isString 199) with false by reflexivity.
    change (199 :: 12 :: 255 :: time_data t) with ([199] ++ [12; 255] ++ time_data t).
    apply reads_bind with (a := tt); [apply ign_step, discard_step; reflexivity|].
    apply reads_bind with (a := ((-1)%Z, 12)).
    + unfold extHeader. change [12; 255] with ([12] ++ [255]).
      apply reads_bind with (a := 12); [|apply (X 12); lia].
      change (parseExtLen 199) with ReadUint8. unfold ReadUint8.
      apply (read_uintN_reads 255 FixPos 12); cbn; lia.
    + cbn [Z.eqb Pos.eqb negb andb]. apply decode_time_reads; [assumption|lia].
Qed.
