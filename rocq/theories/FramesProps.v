(** Properties C01-C09: frame codec, fragmentation, 24-bit lengths. *)
From Coq Require Import List NArith.
From Verif Require Import Base BaseLemmas FramesModel FramesSpec FramesProofs FragmentProofs FramesPropsLemmas.
Import ListNotations.
Open Scope N_scope.

(** C01. The header fields read back are those packed (stream id modulo its reserved top bit). *)
Theorem C01_header_round_trip : forall sid ty fg, sid < 2^32 -> ty < 64 -> fg < 1024 ->
  NewFrameHeader sid ty fg = wire_header sid ty fg
  /\ hdr_stream_id (NewFrameHeader sid ty fg) = sid mod 2^31
  /\ hdr_type (NewFrameHeader sid ty fg) = ty
  /\ hdr_flag (NewFrameHeader sid ty fg) = fg.
Proof. exact header_round_trip. Qed.
Print Assumptions C01_header_round_trip.
Example C01_header_round_trip_ex :
  NewFrameHeader 0x7FFFFFFF 0x0B 0x3A0 = [127;255;255;255;47;160]
  /\ hdr_type [127;255;255;255;47;160] = 0x0B /\ hdr_flag [127;255;255;255;47;160] = 0x3A0.
Proof. vm_compute. auto. Qed.

Theorem C01_header_injective : forall sid ty fg sid' ty' fg',
  sid < 2^31 -> ty < 64 -> fg < 1024 -> sid' < 2^31 -> ty' < 64 -> fg' < 1024 ->
  NewFrameHeader sid ty fg = NewFrameHeader sid' ty' fg' -> sid = sid' /\ ty = ty' /\ fg = fg'.
Proof. exact header_injective. Qed.
Print Assumptions C01_header_injective.

(** Every 6 bytes are the header of the fields read from them, up to the reserved top bit. *)
Theorem C01_header_surjective : forall h, wf h -> length h = 6%nat ->
  exists top, top < 2 /\ h = NewFrameHeader (top * 2^31 + hdr_stream_id h) (hdr_type h) (hdr_flag h)
  /\ hdr_type h < 64 /\ hdr_flag h < 1024 /\ hdr_stream_id h < 2^31.
Proof. exact header_surjective. Qed.
Print Assumptions C01_header_surjective.
Example C01_header_surjective_ex : wfb [200;0;1;2;255;7] = true /\ hdr_stream_id [200;0;1;2;255;7] = 1207959810.
Proof. vm_compute. auto. Qed.

(** C02. *)
Theorem C02_control_frames_round_trip : forall f,
  frame_in_range f -> (forall p, f <> FPayload p) -> (forall r, f <> FRequest r) ->
  exists bs, frame_bytes f = Ret bs /\ frame_parse bs = Ret (Some f).
Proof. exact small_frames_round_trip. Qed.
Print Assumptions C02_control_frames_round_trip.
Example C02_ex : frame_in_range (FError 5 0x201 [98;97;100]) /\
  frame_bytes (FError 5 0x201 [98;97;100]) = Ret [0;0;0;5;44;0;0;0;2;1;98;97;100].
Proof. vm_compute. auto. Qed.

(** C03. *)
Theorem C03_payload_round_trip : forall p, frame_in_range (FPayload p) ->
  exists bs, frame_bytes (FPayload p) = Ret bs
    /\ (frame_parse bs = Ret (Some (FPayload p)) <-> len (pf_metadata p) < 2^24).
Proof. exact payload_round_trip_iff. Qed.
Print Assumptions C03_payload_round_trip.
Example C03_ex : let p := mkPayload 7 [1;2;3] [9;9] true false true in
  frame_in_range (FPayload p) /\ frame_bytes (FPayload p) = Ret [0;0;0;7;41;160;0;0;3;1;2;3;9;9].
Proof. vm_compute. auto. Qed.

(** The full statement (no bound on the metadata) is false: a 16 MiB metadata comes back cut. *)
Theorem C03_payload_round_trip_unbounded_refuted : exists p bs q,
  frame_in_range (FPayload p) /\ frame_bytes (FPayload p) = Ret bs
  /\ frame_parse bs = Ret (Some (FPayload q)) /\ len (pf_metadata q) < len (pf_metadata p).
Proof.
  pose (p := mkPayload 1 (repeat 0 (N.to_nat (2^24))) [] false true true).
  assert (Hl : len (pf_metadata p) = 2^24) by (unfold p; cbn [pf_metadata]; rewrite len_repeat, Nnat.N2Nat.id; reflexivity).
  assert (Hr : frame_in_range (FPayload p)).
  { split; [reflexivity|]. unfold fits32. rewrite Hl. reflexivity. }
  destruct (payload_big_metadata p Hr) as (bs & q & H); [rewrite Hl; discriminate|].
  exists p, bs, q. split; [exact Hr|exact H].
Qed.
Print Assumptions C03_payload_round_trip_unbounded_refuted.

(** C04. A request frame reads back as [request_on_wire]; it reads back as itself exactly when it
    carries no follows mark (and its non-transmitted fields have their defaults). *)
Theorem C04_request_round_trip : forall r, frame_in_range (FRequest r) -> len (rf_metadata r) < 2^24 ->
  exists bs, frame_bytes (FRequest r) = Ret bs
    /\ frame_parse bs = Ret (Some (FRequest (request_on_wire r)))
    /\ (frame_parse bs = Ret (Some (FRequest r)) <->
        rf_follows r = false /\ (rf_type r <> 7 -> rf_complete r = true)
        /\ (rf_type r <> 6 -> rf_type r <> 7 -> rf_initial_n r = 1)).
Proof. exact request_round_trip. Qed.
Print Assumptions C04_request_round_trip.
Example C04_ex : let r := mkRequest 7 3 [1;2] [5] false true 16 in
  frame_in_range (FRequest r) /\ frame_bytes (FRequest r) = Ret [0;0;0;3;29;64;0;0;0;16;0;0;2;1;2;5]
  /\ frame_parse [0;0;0;3;29;64;0;0;0;16;0;0;2;1;2;5] = Ret (Some (FRequest r)).
Proof. vm_compute. intuition discriminate. Qed.

(** The follows mark is lost for every request, in particular for one that carries it. *)
Theorem C04_follows_mark_lost : forall r, frame_in_range (FRequest r) -> len (rf_metadata r) < 2^24 ->
  forall bs, frame_bytes (FRequest r) = Ret bs ->
  exists q, frame_parse bs = Ret (Some (FRequest q)) /\ rf_follows q = false.
Proof. exact wire_follow_lost. Qed.
Print Assumptions C04_follows_mark_lost.
Theorem C04_request_follows_refuted : exists r bs,
  frame_in_range (FRequest r) /\ rf_follows r = true
  /\ frame_bytes (FRequest r) = Ret bs /\ frame_parse bs <> Ret (Some (FRequest r)).
Proof.
  exists (mkRequest 4 1 [1] [2] true true 1), [0;0;0;1;17;0;0;0;1;1;2].
  vm_compute. intuition discriminate.
Qed.
Print Assumptions C04_request_follows_refuted.

(** C05. Encoding into a buffer of the announced size overwrites all of it with the frame and touches
    nothing behind it. *)
Theorem C05_encode_fills_announced_size : forall f, frame_in_range f ->
  forall buf tail, len buf = frame_size f ->
  frame_encode f (buf ++ tail) = Ret (wire f ++ tail) /\ len (wire f) = frame_size f.
Proof. exact encode_exact. Qed.
Print Assumptions C05_encode_fills_announced_size.
Example C05_ex : let f := FPayload (mkPayload 1 [7] [8] false true true) in
  frame_size f = 11 /\ frame_encode f (repeat 255 11 ++ [42]) = Ret ([0;0;0;1;41;96;0;0;1;7;8] ++ [42]).
Proof. vm_compute. auto. Qed.

(** C06. *)
Theorem C06_payload_fragment : forall p max fuel,
  fits32 (pf_metadata p) (pf_data p) -> 10 <= max < 2^32 ->
  len (pf_metadata p) + len (pf_data p) < N.of_nat fuel ->
  (payload_size p <= max /\ payload_fragment fuel p max = Some None)
  \/ (max < payload_size p /\ exists fs, payload_fragment fuel p max = Some (Some fs)
      /\ reassemble_metadata fs = pf_metadata p /\ reassemble_data fs = pf_data p
      /\ Forall (fun q => payload_size q <= max /\ pf_stream_id q = pf_stream_id p) fs
      /\ marks_ok (pf_next p) (pf_complete p) fs).
Proof. exact payload_fragment_correct. Qed.
Print Assumptions C06_payload_fragment.
Example C06_ex : let p := mkPayload 1 [1;2;3] [4;5;6;7;8] false true true in
  payload_fragment 9 p 10 = Some (Some
    [mkPayload 1 [1] [] true false false; mkPayload 1 [2] [] true false false;
     mkPayload 1 [3] [] true false false; mkPayload 1 [] [4;5;6;7] true false false;
     mkPayload 1 [] [8] false true true]).
Proof. vm_compute. reflexivity. Qed.

(** C07. Exact termination condition of the splitting loop. *)
Theorem C07_split_terminates_iff : forall sid next complete max data md,
  fits32 md data -> max < 2^32 ->
  ((exists fuel fs, splitPayloads fuel sid next complete max data md = Some fs)
   <-> ~ ((max = 9 /\ md <> []) \/ (max = 6 /\ md = [] /\ data <> []))).
Proof. exact split_termination. Qed.
Print Assumptions C07_split_terminates_iff.
Example C07_ex : fits32 [1] [2] /\ splitPayloads 50 1 true true 9 [2] [1] = None
  /\ splitPayloads 50 1 true true 10 [2] [1] <> None.
Proof. vm_compute. intuition discriminate. Qed.

(** C08. Request fragmentation; the metadata survives exactly under the stated condition. *)
Theorem C08_request_fragment : forall r max fuel,
  fits32 (rf_metadata r) (rf_data r) -> 13 <= max < 2^32 -> max < request_size r ->
  len (rf_metadata r) + len (rf_data r) < N.of_nat fuel ->
  exists first fs, request_fragment fuel r max = Some (Ret (Some (first, fs)))
    /\ request_size first <= max
    /\ Forall (fun q => payload_size q <= max /\ pf_stream_id q = rf_stream_id r) fs
    /\ rf_type first = rf_type r /\ rf_stream_id first = rf_stream_id r
    /\ rf_initial_n first = rf_initial_n r /\ rf_follows first = true
    /\ marks_ok true (rf_complete r) fs
    /\ rf_data first ++ reassemble_data fs = rf_data r
    /\ (rf_metadata first ++ reassemble_metadata fs = rf_metadata r
        <-> rf_metadata r = [] \/ (max <= len (rf_metadata r) + (if is_stream_or_channel (rf_type r) then 13 else 9))).
Proof. exact request_fragment_iff. Qed.
Print Assumptions C08_request_fragment.
Example C08_ex : let r := mkRequest 4 1 [1;2;3;4;5;6;7] [8;9] false true 1 in
  request_fragment 20 r 14 = Some (Ret (Some (mkRequest 4 1 [1;2;3;4;5] [] true false 1,
      [mkPayload 1 [6;7] [8;9] false true true]))).
Proof. vm_compute. reflexivity. Qed.
Theorem C08_request_small_not_split : forall fuel r max, request_size r <= max ->
  request_fragment fuel r max = Some (Ret None).
Proof. exact request_fragment_small. Qed.
Print Assumptions C08_request_small_not_split.
(** Metadata that fits the first frame is sent twice. *)
Theorem C08_request_fragment_metadata_refuted : exists r first fs,
  fits32 (rf_metadata r) (rf_data r) /\ request_fragment 30 r 20 = Some (Ret (Some (first, fs)))
  /\ rf_metadata first ++ reassemble_metadata fs <> rf_metadata r.
Proof.
  exists (mkRequest 4 1 [1;2] (repeat 0 20) false true 1).
  eexists _, _. split; [reflexivity|]. split; [vm_compute; reflexivity|]. vm_compute. discriminate.
Qed.
Print Assumptions C08_request_fragment_metadata_refuted.

(** C09. *)
Theorem C09_u24 : forall v, v < 2^32 ->
  (v <= 16777215 -> NewUint24 v = (bytes3 v, None) /\ MustNewUint24 v = Ret (bytes3 v)
      /\ (forall w, WriteUint24 w v = (w ++ bytes3 v, None))
      /\ forall rest, ReadUint24ToInt (bytes3 v ++ rest) = Ret v)
  /\ (16777215 < v -> snd (NewUint24 v) = Some ExceedMaxUint24 /\ MustNewUint24 v = Panic
      /\ forall w, WriteUint24 w v = (w, Some ExceedMaxUint24)).
Proof. exact u24_correct. Qed.
Print Assumptions C09_u24.
Example C09_ex : NewUint24 70000 = ([1;17;112], None) /\ MustNewUint24 16777216 = Panic.
Proof. vm_compute. auto. Qed.
