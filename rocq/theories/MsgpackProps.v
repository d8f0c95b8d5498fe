(** Properties C16-C23: MessagePack. *)
From Coq Require Import List NArith ZArith Lia Bool Permutation.
From Verif Require Import Base BaseLemmas OperationsModel MsgpackModel MsgpackSpec MsgpackClient MsgpackSizeProofs MsgpackTreeProofs
  MsgpackHostileProofs MsgpackPropsProofs.
Import ListNotations.
Open Scope N_scope.

Definition no_round (x : N) : N := x.
Definition no_parse (_ : bytes) : option gtime := None.
(** The result of a read without the reader. *)
Definition result {A} (o : outcome (rerr * dr) (A * dr)) : outcome rerr A :=
  match o with Ret (a, _) => Ret a | Fail (e, _) => Fail e | Panic => Panic end.

(** C16. Every single value is written as its MessagePack bytes wherever there is room, and these bytes are read
    back, wherever they stand and whatever follows, as the value. *)
Theorem C16_scalar_round_trip : forall f64to32 pt s, scal_ok s ->
  produces (enc_scal s) (mv_bytes (scal_mv s)) /\ consumes (read_kind f64to32 pt (kind_of s)) (mv_bytes (scal_mv s)) s.
Proof. exact scal_round. Qed.
Print Assumptions C16_scalar_round_trip.
Example C16_ex : scal_ok (SI64 (-129)) /\ scal_ok (SU64 (2^64 - 1)) /\ scal_ok (SStr (repeat 97 (N.to_nat 70000)))
  /\ mv_bytes (scal_mv (SI64 (-129))) = [0xd1; 0xff; 0x7f]
  /\ mv_bytes (scal_mv (SU64 (2^64 - 1))) = [0xcf; 255; 255; 255; 255; 255; 255; 255; 255]
  /\ firstn 6 (mv_bytes (scal_mv (SStr (repeat 97 (N.to_nat 70000))))) = [0xdb; 0; 1; 17; 112; 97].
Proof.
  split; [cbn; lia|]. split; [cbn; lia|]. split.
  - cbn [scal_ok]. split; [vm_compute; reflexivity|apply wfb_wf; vm_compute; reflexivity].
  - vm_compute. repeat split.
Qed.

(** A whole sequence of calls, nillable values, nils and array and map sizes included. *)
Theorem C16_sequence_round_trip : forall f64to32 pt l, Forall (fun pk => prim_ok (fst pk) /\
    match fst pk with POpt (Some s) => kind_of s = snd pk | _ => True end) l ->
  produces (enc_calls (map (fun pk => inl (fst pk)) l)) (flat_map (fun pk => prim_bytes (fst pk)) l) /\
  consumes (read_shapes f64to32 pt (map (fun pk => shape_of (fst pk) (snd pk)) l)) (flat_map (fun pk => prim_bytes (fst pk)) l) (map fst l).
Proof. exact prims_round. Qed.
Print Assumptions C16_sequence_round_trip.
Example C16_sequence_ex : let l := [(PMap 2, KBool); (PVal (SStr [97]), KBool); (POpt (Some (SU8 200)), KU8); (POpt None, KTime); (PNil, KBool)] in
  Forall (fun pk => prim_ok (fst pk) /\ match fst pk with POpt (Some s) => kind_of s = snd pk | _ => True end) l
  /\ flat_map (fun pk => prim_bytes (fst pk)) l = [0x82; 0xa1; 97; 0xcc; 200; 0xc0; 0xc0].
Proof.
  cbv zeta. split; [|reflexivity].
  repeat (apply Forall_cons || apply Forall_nil); cbn; try (split; [|exact I]); try exact I; try (split; [|reflexivity]); try lia.
  split; [reflexivity|apply wfb_wf; reflexivity].
Qed.

(** C17. No signed (unsigned) format that can hold the number is shorter than the one used. *)
Theorem C17_shortest_signed : forall z f, signed_fmt f -> int_range f z ->
  len (mv_bytes (scal_mv (SI64 z))) <= len (mv_bytes (MInt f z)).
Proof. exact shortest_signed. Qed.
Print Assumptions C17_shortest_signed.
Theorem C17_shortest_unsigned : forall n f, unsigned_fmt f -> int_range f (Z.of_N n) ->
  len (mv_bytes (scal_mv (SU64 n))) <= len (mv_bytes (MInt f (Z.of_N n))).
Proof.
  intros n f U R. apply shortest_unsigned; [|assumption]. destruct f; cbn in U |- *; try contradiction; intros [X Y]; try contradiction.
Qed.
Print Assumptions C17_shortest_unsigned.
Example C17_ex : signed_fmt Int16 /\ int_range Int16 (-33) /\ mv_bytes (scal_mv (SI64 (-33))) = [0xd0; 0xdf]
  /\ unsigned_fmt Uint32 /\ int_range Uint32 256 /\ mv_bytes (scal_mv (SU64 256)) = [0xcd; 1; 0].
Proof. cbn. repeat split; try lia; try reflexivity; discriminate. Qed.

(** The writer's width does not matter. *)
Theorem C17_width_independent : forall z n, (forall w, In w [SInt z; SI8 z; SI16 z; SI32 z; SI64 z] -> scal_ok w ->
    produces (enc_scal w) (mv_bytes (scal_mv (SI64 z)))) /\
  (forall w, In w [SUint n; SU8 n; SU16 n; SU32 n; SU64 n] -> scal_ok w -> produces (enc_scal w) (mv_bytes (scal_mv (SU64 n)))).
Proof.
  intros z n. split; intros w H O; pose proof (proj1 (scal_round no_round no_parse w O)) as X; cbn [In] in H;
    intuition (subst w; exact X).
Qed.
Print Assumptions C17_width_independent.
Example C17_width_ex : scal_ok (SI8 (-100)) /\ scal_ok (SI32 (-100)) /\ In (SI8 (-100)) [SInt (-100); SI8 (-100)].
Proof. cbn. repeat split; try lia. auto. Qed.

(** The signed and the unsigned writers agree exactly below 128. *)
Theorem C17_signedness_iff : forall n, n < 2^63 ->
  (mv_bytes (scal_mv (SI64 (Z.of_N n))) = mv_bytes (scal_mv (SU64 n)) <-> n < 128).
Proof. exact cross_iff. Qed.
Print Assumptions C17_signedness_iff.
(** The unsigned readers take what the signed writers wrote ... *)
Theorem C17_uint_reads_int : forall z, (0 <= z < 2^63)%Z -> consumes ReadUint64 (mv_bytes (scal_mv (SI64 z))) (Z.to_N z).
Proof. exact uint_reads_int. Qed.
Print Assumptions C17_uint_reads_int.
(** ... but not the other way round. *)
Theorem C17_int_reads_uint_iff : forall n rest, n < 2^64 -> let d := new_dr (mv_bytes (scal_mv (SU64 n)) ++ rest) in
  len (d_buf d) < 2^32 -> ((exists z d', ReadInt64 d = Ret (z, d')) <-> n < 128).
Proof. exact int_reads_uint_iff. Qed.
Print Assumptions C17_int_reads_uint_iff.
(** The bytes do depend on the signedness: 200. *)
Theorem C17_refuted : to_bytes false [inl (PVal (SI64 200))] [inl (PVal (SI64 200))] = Ret [0xd1; 0; 200]
  /\ to_bytes false [inl (PVal (SU64 200))] [inl (PVal (SU64 200))] = Ret [0xcc; 200]
  /\ result (ReadInt64 (new_dr [0xcc; 200])) = Fail ReadErr.
Proof. vm_compute. repeat split. Qed.
Print Assumptions C17_refuted.

(** C18. The sizing pass announces the length of the bytes written plus the known excess (one byte for a byte
    array of exactly 255 bytes, the whole size for times inside dynamic values). *)
Theorem C18_size : forall l, calls_ok l -> siz_calls l 0 = u32 (len (calls_bytes l) + calls_excess l).
Proof. exact size_calls. Qed.
Print Assumptions C18_size.
(** So ToBytes and AnyToBytes neither panic nor fail; behind the bytes stand as many zeros.  The two passes may
    visit the entries of maps in different orders. *)
Theorem C18_buffer : forall ck sized calls, same_calls sized calls -> calls_ok sized -> calls_ok calls ->
  len (calls_bytes calls) + calls_excess calls < 2^32 ->
  to_bytes ck sized calls = Ret (calls_bytes calls ++ repeat 0 (N.to_nat (calls_excess calls))).
Proof. exact to_bytes_result. Qed.
Print Assumptions C18_buffer.
Theorem C18_exact_iff : forall ck sized calls, same_calls sized calls -> calls_ok sized -> calls_ok calls ->
  len (calls_bytes calls) + calls_excess calls < 2^32 ->
  (to_bytes ck sized calls = Ret (calls_bytes calls) <-> calls_excess calls = 0).
Proof. exact exact_iff. Qed.
Print Assumptions C18_exact_iff.
Definition calls_a : list (prim + gov) := [inl (PArr 1); inr (GMapSS [([97], [98]); ([99], [100])])].
Definition calls_b : list (prim + gov) := [inl (PArr 1); inr (GMapSS [([99], [100]); ([97], [98])])].
Example C18_ex : same_calls calls_a calls_b /\ calls_ok calls_a /\ calls_ok calls_b /\ calls_excess calls_b = 0
  /\ calls_bytes calls_b = [0x91; 0x82; 0xa1; 99; 0xa1; 100; 0xa1; 97; 0xa1; 98].
Proof.
  assert (O : calls_ok calls_a /\ calls_ok calls_b).
  { cbn. repeat split; try reflexivity; apply wfb_wf; reflexivity. }
  destruct O as [O1 O2]. split; [|split; [exact O1|split; [exact O2|split; vm_compute; reflexivity]]].
  apply Forall2_cons; [apply same_plain|]. apply Forall2_cons; [|apply Forall2_nil]. apply same_dyn, same_mapss, perm_swap.
Qed.
(** A byte array of 255 bytes gets a zero byte appended; a time in a dynamic value is written as six zeros. *)
Theorem C18_refuted : to_bytes false [inl (PVal (SBytes (repeat 7 255)))] [inl (PVal (SBytes (repeat 7 255)))]
    = Ret ([0xc4; 255] ++ repeat 7 255 ++ [0])
  /\ to_bytes true [inr (GVal (STime (mkTime 1000 0)))] [inr (GVal (STime (mkTime 1000 0)))] = Ret [0;0;0;0;0;0].
Proof. vm_compute. split; reflexivity. Qed.
Print Assumptions C18_refuted.

(** C19. A signed reader returns [z] exactly when a signed format of a number in its range stands there; an unsigned one
    when any integer format of a number in its range stands there.  (Smaller than 2 GiB.) *)
Theorem C19_int_readers : forall pre tail z d', wf tail -> len pre + len tail < 2^31 ->
  let d := mkDR (pre ++ tail) (len pre) false in
  let here lo hi := (lo <= z <= hi)%Z /\ exists f rest, signed_fmt f /\ int_range f z /\ tail = int_bytes f z ++ rest /\
   d' = mkDR (pre ++ tail) (len pre + len (int_bytes f z)) false in
  (ReadInt8 d = Ret (z, d') <-> here (-2^7) (2^7 - 1))%Z /\
  (ReadInt16 d = Ret (z, d') <-> here (-2^15) (2^15 - 1))%Z /\
  (ReadInt32 d = Ret (z, d') <-> here (-2^31) (2^31 - 1))%Z /\
  (ReadInt64 d = Ret (z, d') <-> here (-2^63) (2^63 - 1))%Z.
Proof.
  intros pre tail z d' W B d here. do 3 (split; [apply read_int_iff; assumption|]). split.
  - unfold d, here. rewrite read_int64_iff by assumption. intros (f & rest & S & I & T & D). split; [|exists f, rest; tauto].
    destruct f; cbn in S, I; try contradiction; lia.
  - unfold d, here. rewrite read_int64_iff by assumption. intros [_ H]. exact H.
Qed.
Print Assumptions C19_int_readers.
Theorem C19_uint_readers : forall pre tail n d', wf tail -> len pre + len tail < 2^31 ->
  let d := mkDR (pre ++ tail) (len pre) false in
  let here hi := n <= hi /\ exists f rest, int_range f (Z.of_N n) /\ tail = int_bytes f (Z.of_N n) ++ rest /\
   d' = mkDR (pre ++ tail) (len pre + len (int_bytes f (Z.of_N n))) false in
  (ReadUint8 d = Ret (n, d') <-> here (2^8 - 1)) /\
  (ReadUint16 d = Ret (n, d') <-> here (2^16 - 1)) /\
  (ReadUint32 d = Ret (n, d') <-> here (2^32 - 1)) /\
  (ReadUint64 d = Ret (n, d') <-> here (2^64 - 1)).
Proof.
  intros pre tail n d' W B d here. do 3 (split; [apply read_uint_iff; assumption|]). split.
  - unfold d, here. rewrite read_uint64_iff by assumption. intros (f & rest & I & T & D). split; [|exists f, rest; tauto].
    destruct f; cbn in I; lia.
  - unfold d, here. rewrite read_uint64_iff by assumption. intros [_ H]. exact H.
Qed.
Print Assumptions C19_uint_readers.
(** In all other cases they return an error; no panic, no read past the end. *)
Theorem C19_total : forall f64to32 pt fuel o d, fixed_size o = true -> len (d_buf d) < 2^31 -> wf (d_buf d) ->
  d_off d <= len (d_buf d) ->
  exists r d', run_op f64to32 pt fuel o d = match r with None => Ret (tt, d') | Some e => Fail (e, d') end /\
    r <> Some OutOfFuel /\ d_buf d' = d_buf d /\ d_off d <= d_off d' <= len (d_buf d).
Proof. exact fixed_never_panics. Qed.
Print Assumptions C19_total.
Example C19_ex : wf [0xd1; 0xff; 0x80; 5] /\ int_bytes Int16 (-128) = [0xd1; 0xff; 0x80] /\ int_range Int16 (-128)
  /\ result (ReadInt8 (mkDR ([1] ++ [0xd1; 0xff; 0x80; 5]) 1 false)) = Ret (-128)%Z
  /\ result (ReadInt8 (new_dr [0xd1; 0xff; 0x7f])) = Fail ReadErr
  /\ result (ReadUint8 (new_dr [0xcd; 1; 0])) = Fail ReadErr
  /\ result (ReadInt32 (new_dr [0xd2; 1; 0])) = Fail ErrRange.
Proof. repeat split; try (apply wfb_wf; reflexivity); vm_compute; reflexivity || discriminate. Qed.

(** C20. On any input without a 4-byte window announcing a length close to 4 GiB ([tame]) and, if ReadAny is called,
    without a byte that announces a map, every sequence of reads, made even after errors, returns; the reader only moves
    forward within the input. *)
Theorem C20_no_panic : forall f64to32 pt fuel l d, let buf := d_buf d in tame buf -> wf buf -> (length buf < fuel)%nat -> d_off d <= len buf ->
  (existsb is_any l = true -> forall b, In b buf -> ~ map_tag b) ->
  exists rs d', run_ops f64to32 pt fuel l d = Ret (rs, d') /\ length rs = length l /\ Forall (fun r => r <> Some OutOfFuel) rs /\
    d_buf d' = buf /\ d_off d <= d_off d' <= len buf.
Proof. exact run_ops_safe. Qed.
Print Assumptions C20_no_panic.
Example C20_ex : tame [0x93; 0xa2; 0x61] /\ wf [0x93; 0xa2; 0x61] /\ (forall b, In b [0x93; 0xa2; 0x61] -> ~ map_tag b)
  /\ (do (rs, _) <- run_ops no_round no_parse 10 [OArr; OStr; OAny; OSkip] (new_dr [0x93; 0xa2; 0x61]) ; Ret rs)
     = Ret [None; Some ErrRange; Some ErrRange; Some ErrRange].
Proof.
  split; [|split; [apply wfb_wf; reflexivity|split; [|vm_compute; reflexivity]]].
  - split; [reflexivity|]. intros pre w post E L. apply (f_equal (@length N)) in E. rewrite !app_length, L in E. cbn in E. lia.
  - intros b H X. unfold map_tag in X. cbn in H. intuition lia.
Qed.
(** After the first out-of-range read every further one fails the same way. *)
Theorem C20_sticky : forall f64to32 pt fuel l d, d_err d = true ->
  run_ops f64to32 pt (S fuel) l d = Ret (repeat (Some ErrRange) (length l), d).
Proof. exact run_ops_bad. Qed.
Print Assumptions C20_sticky.
(** Exactly when taking an announced number of bytes panics. *)
Theorem C20_panic_iff : forall n d, d_off d <= len (d_buf d) -> len (d_buf d) < 2^32 -> n < 2^32 ->
  (get_bytes n d = Panic <->
   d_err d = false /\ 2^32 <= d_off d + n /\ d_off d + n - 2^32 <= len (d_buf d)).
Proof. exact get_bytes_panics. Qed.
Print Assumptions C20_panic_iff.
(** ReadAny always ends. *)
Theorem C20_read_any_ends : forall d fuel e d', wf (d_buf d) -> len (d_buf d) < 2^31 -> d_off d <= len (d_buf d) ->
  (length (d_buf d) < fuel)%nat -> ReadAny fuel d = Fail (e, d') -> e <> OutOfFuel.
Proof. exact read_any_ends. Qed.
Print Assumptions C20_read_any_ends.
(** Without the conditions: a five-byte input makes ReadString panic, a six-byte input makes Skip recurse for ever, a
    three-byte input makes ReadAny panic. *)
Theorem C20_refuted : ReadString (new_dr [0xdb; 0xff; 0xff; 0xff; 0xff]) = Panic
  /\ (forall fuel, result (Skip fuel (new_dr [0x92; 0xdb; 0xff; 0xff; 0xff; 0xfa])) = Fail OutOfFuel)
  /\ ReadAny 10 (new_dr [0x81; 0x90; 0xc0]) = Panic.
Proof.
  split; [vm_compute; reflexivity|]. split; [|vm_compute; reflexivity].
  intro fuel. destruct (loop_skip fuel) as [d' E]. unfold loop_input in E. rewrite E. reflexivity.
Qed.
Print Assumptions C20_refuted.

(** C21. Skip steps over any value, in whatever formats and at any nesting, that holds no extension of one byte or with an
    announced length (and no map of 2^31 or more entries), and over nothing else. *)
Theorem C21_skips_one_value : forall v fuel, mv_ok v -> skippable v -> (length (mv_bytes v) <= fuel)%nat -> consumes (Skip fuel) (mv_bytes v) tt.
Proof. exact skip_consumes. Qed.
Print Assumptions C21_skips_one_value.
Example C21_ex : let v := MMap Len16 [(MStr Len8 [97], MArr InTag [MInt Uint16 3; MNil; MExt InTag 255 [0;0;0;1]])] in
  mv_ok v /\ skippable v /\ mv_bytes v = [0xde;0;1; 0xd9;1;97; 0x93; 0xcd;0;3; 0xc0; 0xd6;255;0;0;0;1].
Proof. cbn. repeat split; try (apply wfb_wf; reflexivity); try reflexivity; try discriminate; try lia; auto. Qed.
(** Everything the writer writes except times outside 1970-2514. *)
Theorem C21_skips_written : forall s fuel, scal_ok s -> (forall t, s = STime t -> len (time_data t) <> 12) ->
  (length (mv_bytes (scal_mv s)) <= fuel)%nat -> consumes (Skip fuel) (mv_bytes (scal_mv s)) tt.
Proof. exact skip_written. Qed.
Print Assumptions C21_skips_written.
Example C21_written_ex : scal_ok (STime (mkTime 1700000000 5)) /\ len (time_data (mkTime 1700000000 5)) <> 12
  /\ length (mv_bytes (scal_mv (STime (mkTime 1700000000 5)))) = 10%nat.
Proof. cbn. repeat split; try lia; discriminate. Qed.
(** Such times make Skip fail ... *)
Theorem C21_long_times_fail : forall t fuel pre rest, len (time_data t) = 12 -> let bs := mv_bytes (scal_mv (STime t)) in
  len pre + len (bs ++ rest) < 2^32 ->
  Skip (S fuel) (mkDR (pre ++ bs ++ rest) (len pre) false) = Fail (ReadErr, mkDR (pre ++ bs ++ rest) (len pre + 1) false).
Proof. exact skip_time12. Qed.
Print Assumptions C21_long_times_fail.
(** ... a one-byte extension is left half unread, and a truncated number is skipped without an error. *)
Theorem C21_refuted : len (time_data (mkTime (-1) 0)) = 12
  /\ result (Skip 9 (new_dr (mv_bytes (scal_mv (STime (mkTime (-1) 0)))))) = Fail ReadErr
  /\ Skip 9 (new_dr (mv_bytes (MExt InTag 1 [9]))) = Ret (tt, mkDR [0xd4; 1; 9] 2 false)
  /\ Skip 9 (new_dr [0xcb; 1; 2]) = Ret (tt, mkDR [0xcb; 1; 2] 1 true).
Proof. vm_compute. repeat split. Qed.
Print Assumptions C21_refuted.

(** C22. A dynamic value without nils and times is written by WriteAny as bytes that ReadAny reads back as an equal value. *)
Theorem C22_any_round_trip : forall v fuel, any_ok v -> clean v -> (length (any_bytes v) <= fuel)%nat ->
  produces (enc_any v) (any_bytes v) /\ exists w, consumes (ReadAny fuel) (any_bytes v) w /\ any_equal v w.
Proof. exact any_round. Qed.
Print Assumptions C22_any_round_trip.
(** Also through AnyToBytes, whose two passes may see maps in different orders. *)
Theorem C22_any_to_bytes : forall v v' fuel, same_any v v' -> any_ok v -> any_ok v' -> clean v' ->
  len (any_bytes v') + any_excess v' < 2^32 -> (length (any_bytes v') <= fuel)%nat ->
  exists data w d', to_bytes true [inr v] [inr v'] = Ret data /\ ReadAny fuel (new_dr data) = Ret (w, d') /\ any_equal v' w.
Proof. exact any_to_bytes_round. Qed.
Print Assumptions C22_any_to_bytes.
(** What ReadAny returns for any formats a peer may choose. *)
Theorem C22_any_formats : forall v fuel, mv_ok v -> readable v -> (length (mv_bytes v) <= fuel)%nat ->
  consumes (ReadAny fuel) (mv_bytes v) (mv_dv v).
Proof. exact any_tree_consumes. Qed.
Print Assumptions C22_any_formats.
Definition any_sample : gov := GMapAny [(GVal (SStr [97]), GSlice [GVal (SI32 (-5)); GVal (SU16 300)]); (GVal (SInt 7), GTSlice KStr [SStr []])].
Example C22_ex : any_ok any_sample /\ clean any_sample /\ any_bytes any_sample = [0x82; 0xa1; 97; 0x92; 0xfb; 0xcd; 1; 44; 7; 0x91; 0xa0]
  /\ result (ReadAny 20 (new_dr (any_bytes any_sample))) =
     Ret (DMap [(DStr [97], DArr [DI64 (-5); DU16 300]); (DI64 7, DArr [DStr []])]).
Proof.
  split.
  { cbn. repeat split; try (apply wfb_wf; reflexivity); try reflexivity; lia. }
  split; [|split; vm_compute; reflexivity].
  cbn. repeat split; try reflexivity.
  - repeat (apply Forall_cons || apply Forall_nil); discriminate.
  - repeat constructor; cbn; intuition discriminate.
Qed.
(** nil is written twice: [nil, 1] is read back as [nil, nil]; a time is written as nothing. *)
Theorem C22_refuted : enc_any (GSlice [GNil; GVal (SInt 1)]) (new_dr (repeat 0 4)) = Ret (mkDR [0x92; 0xc0; 0xc0; 1] 4 false)
  /\ result (ReadAny 9 (new_dr [0x92; 0xc0; 0xc0; 1])) = Ret (DArr [DNil; DNil])
  /\ enc_any (GVal (STime (mkTime 1 1))) (new_dr (repeat 0 10)) = Ret (new_dr (repeat 0 10)).
Proof. vm_compute. repeat split. Qed.
Print Assumptions C22_refuted.

(** C23. Every time, of any int64 second count, is written and read back exactly; the length of its data is 4, 8 or 12 by the
    magnitude of the seconds and the presence of nanoseconds. *)
Theorem C23_time_round_trip : forall pt t, time_ok t ->
  produces (enc_scal (STime t)) (mv_bytes (scal_mv (STime t))) /\ consumes (ReadTime pt) (mv_bytes (scal_mv (STime t))) t.
Proof.
  intros pt t O. split; [apply (scal_round no_round pt (STime t) O)|]. intros pre rest B.
  pose proof (proj2 (scal_round no_round pt (STime t) O) pre rest B) as X.
  cbn [kind_of read_kind] in X. unfold rbind in X. destruct (ReadTime pt _) as [[t' d']|[e d']|]; try discriminate X.
  unfold rret in X. congruence.
Qed.
Print Assumptions C23_time_round_trip.
Theorem C23_data_length : forall t, time_ok t ->
  (len (time_data t) = 4 <-> (0 <= t_sec t < 2^32)%Z /\ t_nsec t = 0) /\
  (len (time_data t) = 8 <-> (0 <= t_sec t < 2^34)%Z /\ ~ ((t_sec t < 2^32)%Z /\ t_nsec t = 0)) /\
  (len (time_data t) = 12 <-> ~ (0 <= t_sec t < 2^34)%Z).
Proof. exact time_lens. Qed.
Print Assumptions C23_data_length.
Example C23_ex : time_ok (mkTime (-1) 999999999)
  /\ mv_bytes (scal_mv (STime (mkTime (-1) 999999999))) = [0xc7; 12; 0xff; 0x3b;0x9a;0xc9;0xff; 255;255;255;255;255;255;255;255]
  /\ mv_bytes (scal_mv (STime (mkTime 17179869183 1))) = [0xd7; 0xff; 0;0;0;7; 255;255;255;255]
  /\ mv_bytes (scal_mv (STime (mkTime 4294967295 0))) = [0xd6; 0xff; 255;255;255;255].
Proof. vm_compute. repeat split; discriminate. Qed.
