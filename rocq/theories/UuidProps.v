(** The claims about go/types/uuid: C45 (text), C46 (random UUIDs), C47 (clock). *)
From Coq Require Import List NArith ZArith Bool Lia.
From Verif Require Import Base BaseLemmas MsgpackModel UuidModel UuidSpec UuidProofs UuidRandProofs.
Import ListNotations.
Open Scope N_scope.

(** f81d4fae-7dec-11d0-a765-00a0c91e6bf6, the example of RFC 4122. *)
Definition rfc : uuid := [0xf8; 0x1d; 0x4f; 0xae; 0x7d; 0xec; 0x11; 0xd0; 0xa7; 0x65; 0x00; 0xa0; 0xc9; 0x1e; 0x6b; 0xf6].
Definition rfc_text : bytes :=
  [102; 56; 49; 100; 52; 102; 97; 101; 45; 55; 100; 101; 99; 45; 49; 49; 100; 48; 45; 97; 55; 54; 53; 45; 48; 48; 97; 48; 99; 57; 49; 101; 54; 98; 102; 54].
Definition upper (b : N) : N := if (97 <=? b) && (b <=? 122) then b - 32 else b.

(** C45. Parsing succeeds exactly on the four notations, with the UUID they spell. *)
Theorem C45_parse_iff : forall s u, wf s -> (Parse s = Ret (u, None) <-> spelled s u).
Proof. exact parse_iff. Qed.
Print Assumptions C45_parse_iff.
Example C45_parse_ex : Parse rfc_text = Ret (rfc, None) /\ Parse (map upper rfc_text) = Ret (rfc, None) /\ Parse (map upper (urn ++ rfc_text)) = Ret (rfc, None)
  /\ Parse (123 :: rfc_text ++ [125]) = Ret (rfc, None) /\ Parse (hex_encode rfc) = Ret (rfc, None).
Proof. vm_compute. auto 6. Qed.

(** Every string is answered, never by a panic; which error is decided by length, prefix and digits, in that order. *)
Theorem C45_errors : forall s, wf s -> exists r e, Parse s = Ret (r, e) /\ verdict s e.
Proof. intros s W. destruct (parse_verdict s W) as (r & e & E & V & _). eauto. Qed.
Print Assumptions C45_errors.
Theorem C45_error_iff : forall s e, wf s -> ((exists r, Parse s = Ret (r, e)) <-> verdict s e).
Proof. exact parse_error_iff. Qed.
Print Assumptions C45_error_iff.
Example C45_errors_ex : Parse (120 :: rfc_text) = Ret (zero_uuid, Some (BadLength 37)) /\ Parse (map N.succ urn ++ rfc_text) = Ret (zero_uuid, Some BadPrefix)
  /\ (exists r, Parse (map (fun c => if c =? 45 then 45 else 103) rfc_text) = Ret (r, Some BadFormat)).
Proof. vm_compute. eauto. Qed.

(** String writes the hyphenated notation in lower case; URN puts the prefix before it. *)
Theorem C45_string : forall u, length u = 16%nat -> wf u -> exists t, String u = Ret t /\ dashed t u /\ Forall (fun c => lower_hex c \/ c = 45) t.
Proof. exact string_proof. Qed.
Print Assumptions C45_string.
Theorem C45_urn : forall u, length u = 16%nat -> wf u -> exists t, URN u = Ret ([117; 114; 110; 58; 117; 117; 105; 100; 58] ++ t) /\ String u = Ret t.
Proof. exact urn_proof. Qed.
Print Assumptions C45_urn.
Example C45_string_ex : String rfc = Ret rfc_text /\ URN rfc = Ret (urn ++ rfc_text).
Proof. vm_compute. auto. Qed.

(** Round trips. *)
Theorem C45_round_trip : forall u, length u = 16%nat -> wf u ->
  (exists t, String u = Ret t /\ Parse t = Ret (u, None)) /\ (exists t, URN u = Ret t /\ Parse t = Ret (u, None)).
Proof. exact round_trip_proof. Qed.
Print Assumptions C45_round_trip.
Theorem C45_string_injective : forall u v, length u = 16%nat -> wf u -> length v = 16%nat -> wf v -> String u = String v -> u = v.
Proof. exact string_inj_proof. Qed.
Print Assumptions C45_string_injective.
Example C45_round_trip_ex : length rfc = 16%nat /\ wf rfc /\ rfc <> zero_uuid.
Proof. split; [reflexivity|split; [apply wfb_wf; reflexivity|discriminate]]. Qed.

(** UnmarshalText changes its receiver only on success; UnmarshalBinary takes exactly 16 bytes. *)
Theorem C45_unmarshal_text : forall old data, wf data ->
  (forall u, UnmarshalText old data = Ret (u, None) <-> spelled data u) /\
  (forall u e, UnmarshalText old data = Ret (u, Some e) <-> u = old /\ verdict data (Some e)).
Proof. exact unmarshal_text_proof. Qed.
Print Assumptions C45_unmarshal_text.
Theorem C45_unmarshal_binary : forall old data, length old = 16%nat ->
  UnmarshalBinary old data = if len data =? 16 then (data, None) else (old, Some (BadLength (len data))).
Proof. exact binary_proof. Qed.
Print Assumptions C45_unmarshal_binary.
Example C45_unmarshal_ex : UnmarshalText rfc (map N.succ rfc_text) = Ret (rfc, Some BadFormat) /\ UnmarshalBinary rfc [1; 2] = (rfc, Some (BadLength 2)) /\ UnmarshalBinary zero_uuid rfc = (rfc, None).
Proof. vm_compute. auto. Qed.

(** Not so: that the braces of the Microsoft notation are required. *)
Theorem C45_braces_refuted : ~ (forall x r y u, Parse (x :: r ++ [y]) = Ret (u, None) -> length r = 36%nat -> x = 123 /\ y = 125).
Proof. intro X. destruct (X 0 rfc_text 0 rfc) as [E _]; [vm_compute; reflexivity|reflexivity|discriminate E]. Qed.
Print Assumptions C45_braces_refuted.
(** Nor that a failed Parse returns the zero UUID: the first bytes are already filled in. *)
Theorem C45_failed_parse_zero_refuted : ~ (forall s u e, wf s -> Parse s = Ret (u, Some e) -> u = zero_uuid).
Proof. intro X. specialize (X (firstn 35 rfc_text ++ [103]) (firstn 15 rfc ++ [0]) BadFormat). assert (Y : firstn 15 rfc ++ [0] = zero_uuid) by (apply X; [apply wfb_wf; reflexivity|vm_compute; reflexivity]). discriminate Y. Qed.
Print Assumptions C45_failed_parse_zero_refuted.

(** C46. Whatever the random bytes, the result has version 4 and the RFC 4122 variant ... *)
Theorem C46_marks : forall u, length u = 16%nat -> wf u -> Version (stamp u) = 4 /\ Variant (stamp u) = RFC4122.
Proof. exact stamp_marks_proof. Qed.
Print Assumptions C46_marks.
(** ... and the other 122 bits are the random ones ... *)
Theorem C46_free_bits : forall u byte bit, length u = 16%nat -> free_bit byte bit -> bit_of (stamp u) byte bit = bit_of u byte bit.
Proof. exact stamp_free_proof. Qed.
Print Assumptions C46_free_bits.
(** ... so that two equal UUIDs come from equal random bits. *)
Theorem C46_lossless : forall u v, length u = 16%nat -> length v = 16%nat -> stamp u = stamp v ->
  forall byte bit, free_bit byte bit -> bit_of u byte bit = bit_of v byte bit.
Proof. exact stamp_lossless_proof. Qed.
Print Assumptions C46_lossless.
Example C46_marks_ex : Version rfc = 1 /\ Version (stamp rfc) = 4 /\ Variant (stamp (repeat 0 16)) = RFC4122 /\ Variant (repeat 0 16) = Reserved
  /\ length (filter (fun p => negb ((fst p =? 6) && (4 <=? snd p)) && negb ((fst p =? 8) && (6 <=? snd p))) (list_prod (map N.of_nat (seq 0 16)) (map N.of_nat (seq 0 8)))) = 122%nat.
Proof. vm_compute. auto 6. Qed.

(** The variants, by the top bits of byte 8 (RFC 4122, 4.1.1). *)
Theorem C46_variants : forall u, wf u -> let b := nth 8 u 0 in
  (Variant u = Reserved <-> b < 0x80) /\ (Variant u = RFC4122 <-> 0x80 <= b < 0xc0) /\ (Variant u = Microsoft <-> 0xc0 <= b < 0xe0) /\ (Variant u = Future <-> 0xe0 <= b) /\ Variant u <> Invalid.
Proof.
  intros u W b. assert (B : b < 256). { unfold b. destruct (Nat.lt_ge_cases 8 (length u)) as [L|L]; [|rewrite nth_overflow by lia; reflexivity]. unfold wf in W. rewrite Forall_forall in W. apply W, nth_In, L. }
  unfold Variant. fold b. clearbody b. clear u W.
  assert (X : forallb (fun b => let v := (if N.land b 0xc0 =? 0x80 then 1 else if N.land b 0xe0 =? 0xc0 then 2 else if N.land b 0xe0 =? 0xe0 then 3 else 0) in v =? (if b <? 0x80 then 0 else if b <? 0xc0 then 1 else if b <? 0xe0 then 2 else 3)) (map N.of_nat (seq 0 256)) = true) by (vm_compute; reflexivity).
  rewrite forallb_forall in X. specialize (X b). rewrite in_map_iff in X. assert (I : exists x, N.of_nat x = b /\ In x (seq 0 256)) by (exists (N.to_nat b); split; [lia|apply in_seq; lia]).
  specialize (X I). cbv zeta in X. clear I. apply N.eqb_eq in X.
  destruct (N.land b 0xc0 =? 0x80), (N.land b 0xe0 =? 0xc0), (N.land b 0xe0 =? 0xe0); destruct (N.ltb_spec b 0x80), (N.ltb_spec b 0xc0), (N.ltb_spec b 0xe0); try discriminate X; repeat split; intros; try discriminate; try lia; try reflexivity.
Qed.
Print Assumptions C46_variants.
Example C46_variants_ex : Variant (repeat 0 8 ++ [0xc7] ++ repeat 0 7) = Microsoft /\ Variant (repeat 0 8 ++ [0xe0] ++ repeat 0 7) = Future /\ Variant rfc = RFC4122.
Proof. vm_compute. auto. Qed.

(** With any interleaving of New, EnableRandPool and DisableRandPool, and reads of the random source failing at any point, the
    UUIDs produced are made of pairwise disjoint stretches of the random stream, in order: no random byte is used twice. *)
Theorem C46_disjoint : forall rand h, exists os, apart 0 os /\ rrun rand r_init h = map (fun o => stamp (take rand o 16)) os.
Proof. exact disjoint_proof. Qed.
Print Assumptions C46_disjoint.
Theorem C46_new_succeeds : forall rand s, exists u, snd (rstep rand s (RNew None)) = Some u.
Proof. exact new_succeeds_proof. Qed.
Print Assumptions C46_new_succeeds.
Definition counter (i : nat) : N := N.of_nat i mod 256.
Example C46_disjoint_ex : map (fun u => nth 0 u 0) (rrun counter r_init [RNew None; REnable; RNew (Some 3%nat); RNew None; RNew (Some 5%nat); RDisable; RNew None; REnable; RNew None]) = [0; 19; 35; 19; 35]
  /\ length (rrun counter r_init (REnable :: repeat (RNew None) 40)) = 40%nat.
Proof. vm_compute. auto. Qed.

(** How much of the random source a UUID costs: 16 bytes, those it is made of, while pooling is off; none or 256 while it is on. *)
Theorem C46_cost : forall rand h, let s := fold_left (fun s c => fst (rstep rand s c)) h r_init in let (s', o) := rstep rand s (RNew None) in
  (pooling h = false -> o = Some (stamp (take rand (r_pos s) 16)) /\ r_pos s' = (r_pos s + 16)%nat) /\
  (pooling h = true -> r_pos s' = r_pos s \/ r_pos s' = (r_pos s + 256)%nat /\ o = Some (stamp (take rand (r_pos s) 16))).
Proof.
  intros rand h s. assert (P : r_pooled s = pooling h) by (exact (pooled_history rand h)). cbn [rstep]. rewrite P. destruct (pooling h).
  - unfold new_from_pool. destruct (Nat.eqb (r_pool_pos s) pool_size).
    + unfold draw. cbn [r_pos r_pooled r_pool_pos r_pool skipn]. split; [discriminate|]. intros _. right. split; reflexivity.
    + unfold draw. cbn [r_pos]. split; [discriminate|]. intros _. left. reflexivity.
  - unfold new_from_reader. cbn [r_pos]. split; [intros _; split; reflexivity|discriminate].
Qed.
Print Assumptions C46_cost.
Example C46_cost_ex : pooling [REnable; RNew None; RDisable] = false /\
  r_pos (fold_left (fun s c => fst (rstep counter s c)) [REnable; RNew None; RNew None; RDisable; RNew None; RNew None; REnable; RNew None] r_init) = 544%nat.
Proof. vm_compute. auto. Qed.

(** C47. Any 16384 consecutive clock readings are pairwise different, whatever was done before and whatever the wall clock shows. *)
Theorem C47_window : forall h l, (length l <= N.to_nat 16384)%nat -> NoDup (readings (cstate_after h) (gets l)).
Proof. exact window_proof. Qed.
Print Assumptions C47_window.
Example C47_window_ex : readings (cstate_after [CSet 5 0; CGet 1000 0]) (gets [(1000%Z, 0); (900%Z, 0); (1200%Z, 0)]) =
  [(122192928000000010%Z, 0x8006); (122192928000000009%Z, 0x8007); (122192928000000012%Z, 0x8007)].
Proof. vm_compute. reflexivity. Qed.
(** The bound is exact: with a stopped clock the 16385th reading repeats the first. *)
Theorem C47_longer_window_refuted : ~ (forall h l, (length l <= N.to_nat 16385)%nat -> NoDup (readings (cstate_after h) (gets l))).
Proof.
  intro X. specialize (X [] (repeat (0%Z, 0) (N.to_nat 16385))). rewrite repeat_length in X. specialize (X (le_n _)). assert (E : 0%nat = N.to_nat 16384); [|discriminate E]. apply (proj1 (NoDup_nth _ (0%Z, 0)) X).
  - apply Nat.ltb_lt. vm_compute. reflexivity.
  - apply Nat.ltb_lt. vm_compute. reflexivity.
  - vm_compute. reflexivity.
Qed.
Print Assumptions C47_longer_window_refuted.
(** Nor does it hold across SetClockSequence. *)
Theorem C47_across_set_refuted : ~ (forall h, NoDup (readings c_init h)).
Proof. intro X. specialize (X [CSet 5 0; CGet 1000 0; CSet 6 0; CSet 5 0; CGet 1000 0]). vm_compute in X. inversion X as [|? ? N _]. apply N. left. reflexivity. Qed.
Print Assumptions C47_across_set_refuted.

(** The sequence always carries the variant bits 10. *)
Theorem C47_variant : forall h t q, In (t, q) (readings c_init h) -> 0x8000 <= q < 0xC000.
Proof. exact variant_proof. Qed.
Print Assumptions C47_variant.
Example C47_variant_ex : readings c_init [CGet 0 0x1FFFF; CSet (-7) 0; CGet 0 0] = [(122192928000000000%Z, 0xBFFF); (122192928000000000%Z, 0xBFF9)].
Proof. vm_compute. reflexivity. Qed.

(** A reading converts back to the wall clock, cut to 100 ns towards 1970, for every int64. *)
Theorem C47_reading_time : forall h nano r, (- 2^63 <= nano < 2^63)%Z ->
  let t := fst (snd (getTime (cstate_after h) nano r)) in split_seconds (Z.quot nano 100 * 100) (fst (UnixTime t)) (snd (UnixTime t)).
Proof. intros h nano r B. exact (reading_time_proof (cstate_after h) nano r (after_ready h) B). Qed.
Print Assumptions C47_reading_time.
Theorem C47_unix : forall t, (- 2^63 + g1582ns100 <= t < 2^63)%Z -> split_seconds ((t - g1582ns100) * 100) (fst (UnixTime t)) (snd (UnixTime t)).
Proof. exact unix_proof. Qed.
Print Assumptions C47_unix.
Example C47_unix_ex : UnixTime (fst (snd (getTime c_init 1668636112123456789 7))) = (1668636112, 123456700)%Z /\ UnixTime (g1582ns100 - 10000001) = (-1, -100)%Z /\ g1582ns100 = 0x01B21DD213814000%Z.
Proof. vm_compute. auto. Qed.

(** The fields of a time-based UUID are read back. *)
Theorem C47_fields : forall t ver seq node, t < 2^60 -> ver < 16 -> seq < 2^14 -> length node = 6%nat ->
  Time (rfc_uuid t ver seq node) = Z.of_N t /\ ClockSequence (rfc_uuid t ver seq node) = seq /\ Version (rfc_uuid t ver seq node) = ver /\ Variant (rfc_uuid t ver seq node) = RFC4122.
Proof. exact fields_proof. Qed.
Print Assumptions C47_fields.
Example C47_fields_ex : rfc = rfc_uuid 0x1d07decf81d4fae 1 0x2765 [0x00; 0xa0; 0xc9; 0x1e; 0x6b; 0xf6] /\ Time rfc = 0x1d07decf81d4fae%Z.
Proof. vm_compute. auto. Qed.
