(** Lemmas about stream ids. *)
From Coq Require Import List NArith ZArith Lia Bool ZifyBool ZifyNat ZifyN.
From Verif Require Import Base BaseLemmas StreamIdModel StreamIdSpec.
Import ListNotations.
Open Scope N_scope.
Ltac Zify.zify_post_hook ::= Z.div_mod_to_equations.

Lemma mask_mod : forall v, u32 (N.land maskStreamID v) = v mod 2^31.
Proof.
  intro v. unfold maskStreamID. rewrite N.land_comm. change 0x7FFFFFFF with (2^31 - 1). rewrite land_ones_mod.
  unfold u32. apply N.mod_small. change (2^32) with 4294967296. change (2^31) with 2147483648. lia.
Qed.

Lemma Next_closed : forall s c fuel, c + 1 < 2^63 ->
  Next (S fuel) s c = Some (c + 1, (kth_id s (c + 1), c + 1 <=? 2^30)).
Proof.
  intros s c fuel H. change (2^63) with 9223372036854775808 in H.
  cbn [Next]. unfold u64 at 1 2 3 4. change (2^64) with 18446744073709551616.
  rewrite (N.mod_small (c + 1)) by lia.
  assert (Hv : raw_id s (c + 1) = match s with Client => 2 * (c+1) - 1 | Server => 2 * (c+1) end).
  { unfold raw_id, u64. change (2^64) with 18446744073709551616. destruct s; lia. }
  rewrite Hv. rewrite mask_mod. unfold kth_id. 
  destruct s.
  - destruct (N.eqb_spec (2 * (c + 1) - 1) 0); [lia|reflexivity].
  - destruct (N.eqb_spec (2 * (c + 1)) 0); [lia|reflexivity].
Qed.

Lemma Next_total : forall s c, c < 2^64 -> exists c' r, Next 2 s c = Some (c', r) /\ c' < 2^64.
Proof.
  intros s c H. change (2^64) with 18446744073709551616 in *.
  cbn [Next].
  set (s1 := u64 (c + 1)). set (s2 := u64 (s1 + 1)).
  assert (s1 < 18446744073709551616) by (unfold s1, u64; apply N.mod_lt; discriminate).
  assert (s2 < 18446744073709551616) by (unfold s2, u64; apply N.mod_lt; discriminate).
  destruct (N.eqb_spec (raw_id s s1) 0) as [E1|]; cbn [negb]; [|eauto].
  destruct (N.eqb_spec (raw_id s s2) 0) as [E2|]; cbn [negb]; [|eauto].
  exfalso. unfold raw_id, s2, u64 in *. change (2^64) with 18446744073709551616 in *. destruct s; lia.
Qed.

Lemma Nexts_from : forall n s c, c + N.of_nat n < 2^63 ->
  Nexts n s c = Some (map (fun k => (kth_id s (N.of_nat k), N.of_nat k <=? 2^30)) (seq (S (N.to_nat c)) n)).
Proof.
  induction n; intros s c H; [reflexivity|].
  cbn [Nexts]. rewrite Next_closed by lia. rewrite IHn by lia.
  cbn [seq map]. replace (N.to_nat (c + 1)) with (S (N.to_nat c)) by lia.
  replace (N.of_nat (S (N.to_nat c))) with (c + 1) by lia. reflexivity.
Qed.

Lemma Nexts_first : forall n s, N.of_nat n < 2^63 -> Nexts n s 0 = Some (first_ids s n).
Proof. intros. apply (Nexts_from n s 0). lia. Qed.

Lemma kth_id_window : forall s i j, 1 <= i -> i < j -> j - i < 2^30 -> kth_id s i <> kth_id s j.
Proof.
  intros s i j. unfold kth_id. change (2^30) with 1073741824. change (2^31) with 2147483648.
  destruct s; lia.
Qed.
Lemma kth_id_parity : forall s k, 1 <= k -> kth_id s k mod 2 = match s with Client => 1 | Server => 0 end.
Proof. intros s k. unfold kth_id. change (2^31) with 2147483648. destruct s; lia. Qed.
Lemma kth_id_bound : forall s k, kth_id s k < 2^31.
Proof. intros [] k; apply N.mod_lt; discriminate. Qed.
Lemma kth_id_zero : forall s k, 1 <= k -> (kth_id s k = 0 <-> s = Server /\ k mod 2^30 = 0).
Proof.
  intros s k. unfold kth_id. change (2^31) with 2147483648. change (2^30) with 1073741824.
  destruct s; intros; split; intros; try split; try reflexivity; try lia; destruct H0; try discriminate; lia.
Qed.

Lemma NoDup_ids : forall s n, N.of_nat n <= 2^30 -> NoDup (map fst (first_ids s n)).
Proof.
  intros s n Hn. unfold first_ids. rewrite map_map. cbn [fst].
  assert (G : forall a m, (1 <= a)%nat -> N.of_nat m <= 2^30 -> NoDup (map (fun k => kth_id s (N.of_nat k)) (seq a m))).
  { intros a m; revert a; induction m; intros a Ha Hm; cbn [seq map]; constructor.
    - rewrite in_map_iff. intros (k & E & Hk). apply in_seq in Hk. symmetry in E.
      revert E. apply kth_id_window; lia.
    - apply IHm; lia. }
  apply G; lia.
Qed.

Lemma ids_nth : forall s n i, (i < n)%nat ->
  nth_error (first_ids s n) i = Some (kth_id s (N.of_nat (S i)), N.of_nat (S i) <=? 2^30).
Proof.
  intros s n i H. unfold first_ids.
  pose (f := fun k => (kth_id s (N.of_nat k), N.of_nat k <=? 2^30)).
  change (nth_error (map f (seq 1 n)) i = Some (f (S i))).
  apply map_nth_error.
  rewrite (nth_error_nth' _ 0%nat) by (rewrite seq_length; lia). rewrite seq_nth by lia. reflexivity.
Qed.

Lemma ids_length : forall s n, length (first_ids s n) = n.
Proof. intros. unfold first_ids. rewrite map_length, seq_length. reflexivity. Qed.

Lemma Nexts_unique : forall s n l, N.of_nat n <= 2^30 -> Nexts n s 0 = Some l -> NoDup (map fst l).
Proof.
  intros s n l Hn H. rewrite Nexts_first in H by (change (2^63) with (2^30 * 2^33); lia).
  injection H as <-. apply NoDup_ids; assumption.
Qed.

Lemma Nexts_nth : forall s n l i id fl, N.of_nat n < 2^63 -> Nexts n s 0 = Some l ->
  nth_error l i = Some (id, fl) -> id = kth_id s (N.of_nat (S i)) /\ fl = (N.of_nat (S i) <=? 2^30).
Proof.
  intros s n l i id fl Hn H Hi. rewrite Nexts_first in H by assumption. injection H as <-.
  assert (i < n)%nat. { rewrite <- (ids_length s n). apply nth_error_Some. rewrite Hi. discriminate. }
  rewrite ids_nth in Hi by assumption. injection Hi as <- <-. auto.
Qed.

Lemma Nexts_window : forall s n l i j idi fi idj fj, N.of_nat n < 2^63 -> Nexts n s 0 = Some l ->
  (i < j)%nat -> N.of_nat (j - i) < 2^30 ->
  nth_error l i = Some (idi, fi) -> nth_error l j = Some (idj, fj) -> idi <> idj.
Proof.
  intros s n l i j idi fi idj fj Hn H Hij Hw Hi Hj.
  destruct (Nexts_nth _ _ _ _ _ _ Hn H Hi) as [-> _]. destruct (Nexts_nth _ _ _ _ _ _ Hn H Hj) as [-> _].
  apply kth_id_window; lia.
Qed.

Lemma Nexts_sides_disjoint : forall n m lc ls, N.of_nat n < 2^63 -> N.of_nat m < 2^63 ->
  Nexts n Client 0 = Some lc -> Nexts m Server 0 = Some ls ->
  forall idc fc ids fs, In (idc, fc) lc -> In (ids, fs) ls ->
    idc mod 2 = 1 /\ ids mod 2 = 0 /\ idc < 2^31 /\ ids < 2^31 /\ idc <> ids.
Proof.
  intros n m lc ls Hn Hm Hc Hs idc fc ids fs H1 H2.
  apply In_nth_error in H1 as (i & H1). apply In_nth_error in H2 as (j & H2).
  destruct (Nexts_nth _ _ _ _ _ _ Hn Hc H1) as [-> _]. destruct (Nexts_nth _ _ _ _ _ _ Hm Hs H2) as [-> _].
  pose proof (kth_id_parity Client (N.of_nat (S i))). pose proof (kth_id_parity Server (N.of_nat (S j))).
  cbv beta iota in *.
  repeat split; try apply kth_id_bound; try (apply H; lia); try (apply H0; lia).
  intro E. rewrite E in H. lia.
Qed.

Lemma Nexts_zero : forall s n l i id fl, N.of_nat n < 2^63 -> Nexts n s 0 = Some l ->
  nth_error l i = Some (id, fl) -> (id = 0 <-> s = Server /\ N.of_nat (S i) mod 2^30 = 0).
Proof.
  intros s n l i id fl Hn H Hi. destruct (Nexts_nth _ _ _ _ _ _ Hn H Hi) as [-> _]. apply kth_id_zero. lia.
Qed.

Lemma Nexts_first_loop : forall s n l i id fl, N.of_nat n < 2^63 -> Nexts n s 0 = Some l ->
  nth_error l i = Some (id, fl) -> (fl = true <-> N.of_nat i < 2^30).
Proof.
  intros s n l i id fl Hn H Hi. destruct (Nexts_nth _ _ _ _ _ _ Hn H Hi) as [_ ->].
  change (2^30) with 1073741824. lia.
Qed.
