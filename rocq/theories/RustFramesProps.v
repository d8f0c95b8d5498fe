(** C79: the Rust and the Go implementation read each other's frames. *)
From Coq Require Import List NArith ZArith Lia Bool ZifyBool ZifyNat ZifyN.
From Verif Require Import Base BaseLemmas FramesModel FramesSpec FramesProofs CustomSpec RustFramesModel RustFramesSpec RustFramesProofs.
Import ListNotations.
Open Scope N_scope.

(** Whatever the bytes, Rust reads a frame where Go does, and the same one, unless it is an error whose text is not UTF-8. *)
Theorem C79_same_frame : forall bs f, wf bs ->
  (frame_parse bs = Ret (Some f) /\ readable_text f <-> exists g, rframe_decode bs = Ret g /\ consistent g /\ says (go_view g) = f).
Proof.
  intros bs f W. assert (A := parse_agree bs W). split.
  - intros [P R]. rewrite P in A. cbn [agree] in A. destruct A as [[_ (g & E & S & C)]|[NR _]]; [exists g; auto|contradiction].
  - intros (g & E & C & S). unfold agree in A. rewrite E in A. destruct (frame_parse bs) as [[f'|]|[]|]; try discriminate.
    destruct A as [[R (g' & E' & S' & C')]|[_ B]]; [|discriminate]. assert (G : g' = g) by congruence. rewrite G in S'. assert (F : f' = f) by congruence. rewrite <- F. split; [reflexivity|exact R].
Qed.
Print Assumptions C79_same_frame.
Example C79_same_frame_ex : let bs := [128;0;0;7;27;64;0;0;0;9;0;0;2;1;2;65] in wfb bs = true
  /\ frame_parse bs = Ret (Some (FRequest (mkRequest 6 7 [1;2] [65] false true 9)))
  /\ rframe_decode bs = Ret (RRequestStream (mkRRequest TRequestStream 7 [1;2] [65] false true 9)).
Proof. vm_compute. repeat split. Qed.

(** It answers an error exactly for the text of an error frame that is not UTF-8, which Go reads. *)
Theorem C79_rust_error_iff : forall bs e, wf bs ->
  (rframe_decode bs = Fail e <-> e = StringConversion /\ exists sid code data, frame_parse bs = Ret (Some (FError sid code data)) /\ ~ utf8 data).
Proof.
  intros bs e W. assert (A := parse_agree bs W). unfold agree in A. split.
  - intros E. rewrite E in A. destruct (frame_parse bs) as [[f|]|[]|]; try discriminate. destruct A as [[_ (g & X & _)]|[NR X]]; [discriminate|].
    split; [congruence|]. destruct f as [?|? ?|sid code data|?|?]; try (exfalso; exact (NR Logic.I)). exists sid, code, data. split; [reflexivity|exact NR].
  - intros [-> (sid & code & data & P & NU)]. rewrite P in A. destruct A as [[R _]|[_ X]]; [exfalso; exact (NU R)|exact X].
Qed.
Print Assumptions C79_rust_error_iff.
Theorem C79_text_refuted : exists bs sid data, wf bs /\ frame_bytes (FError sid 0 data) = Ret bs /\ frame_parse bs = Ret (Some (FError sid 0 data))
  /\ rframe_decode bs = Fail StringConversion.
Proof. exists [0;0;0;2;44;0;0;0;0;0;255], 2, [255]. split; [apply wfb_wf; reflexivity|]. vm_compute. repeat split. Qed.
Print Assumptions C79_text_refuted.

(** Bytes that crash the Go reader crash the Rust reader, and so does every frame of a type Go skips. *)
Theorem C79_rust_panics_iff : forall bs, wf bs -> (rframe_decode bs = Panic <-> frame_parse bs = Panic \/ frame_parse bs = Ret None).
Proof.
  intros bs W. assert (A := parse_agree bs W). unfold agree in A. split.
  - intros E. rewrite E in A. destruct (frame_parse bs) as [[f|]|[]|]; auto. destruct A as [[_ (g & X & _)]|[_ X]]; discriminate.
  - intros [P|P]; rewrite P in A; exact A.
Qed.
Print Assumptions C79_rust_panics_iff.
Theorem C79_skipped_type_refuted : exists bs, wf bs /\ bs = wire_header 0 3 0 ++ [0;0;0;0;0;0;0;0] /\ frame_parse bs = Ret None /\ rframe_decode bs = Panic.
Proof. eexists. split; [|split; [reflexivity|]]. - apply wfb_wf. reflexivity. - vm_compute. auto. Qed.
Print Assumptions C79_skipped_type_refuted.

(** What Rust writes is the wire form of the frame, and Go reads that frame out of it. *)
Theorem C79_rust_to_go : forall g, frame_in_range (go_view g) ->
  rframe_encode g = Ret (wire (go_view g))
  /\ (len (frame_metadata (go_view g)) < 2^24 -> frame_parse (wire (go_view g)) = Ret (Some (on_wire (go_view g)))).
Proof. intros g H. split; [exact (rframe_encode_wire g H)|intro L; exact (frame_parse_wire _ H L)]. Qed.
Print Assumptions C79_rust_to_go.
Example C79_rust_to_go_ex : let g := new_request_channel 3 (Some [0;0;0;1;0;0;0;0]) (Some [65]) FLAG_NEXT 2147483647 in
  rframe_encode g = Ret [0;0;0;3;29;0;127;255;255;255;0;0;8;0;0;0;1;0;0;0;0;65]
  /\ frame_parse [0;0;0;3;29;0;127;255;255;255;0;0;8;0;0;0;1;0;0;0;0;65] = Ret (Some (FRequest (mkRequest 7 3 [0;0;0;1;0;0;0;0] [65] false false 2147483647))).
Proof. vm_compute. repeat split. Qed.

(** What Go writes, Rust reads: the frame, as it says on the wire. *)
Theorem C79_go_to_rust : forall f, frame_in_range f -> wf (wire f) -> len (frame_metadata f) < 2^24 -> readable_text f ->
  exists bs g, frame_bytes f = Ret bs /\ rframe_decode bs = Ret g /\ consistent g /\ says (go_view g) = on_wire f.
Proof.
  intros f H W L R. exists (wire f).
  assert (P : frame_parse (wire f) = Ret (Some (on_wire f)) /\ readable_text (on_wire f)).
  { split; [exact (frame_parse_wire f H L)|]. destruct f; exact R. }
  apply (proj1 (C79_same_frame (wire f) (on_wire f) W)) in P. destruct P as (g & D & C & S). exists g. split; [exact (frame_bytes_wire f H)|]. auto.
Qed.
Print Assumptions C79_go_to_rust.
Example C79_go_to_rust_ex : let f := FPayload (mkPayload 5 [9] [1;2;3] true false true) in
  rframe_decode (wire f) = Ret (RPayloadFrame (mkRPayload 5 [9] [1;2;3] true false true)).
Proof. vm_compute. reflexivity. Qed.

(** A frame behind its 24-bit length, as either side puts it in a shared buffer, is read back whole; nothing else is. *)
Theorem C79_prefixed : forall buf f rest, wf buf ->
  (read_frame buf = Some (f, rest) <-> buf = bytes3 (len f) ++ f ++ rest /\ len f < 2^24).
Proof. intros buf f rest W. split; [exact (read_frame_inv buf f rest W)|]. intros [-> L]. exact (read_frame_app f rest L). Qed.
Print Assumptions C79_prefixed.
Example C79_prefixed_ex : read_frame [0;0;4;1;2;3;4;5] = Some ([1;2;3;4], [5]) /\ read_frame [0;0;4;1;2;3] = None.
Proof. vm_compute. auto. Qed.

(** The two sides do not agree on the bit that says "ignore". *)
Theorem C79_ignore_refuted : exists h, h = NewFrameHeader 1 10 FlagIgnore /\ Check (hdr_flag h) FlagIgnore = true /\ header_check h FLAG_IGNORE = false.
Proof. eexists. split; [reflexivity|]. vm_compute. auto. Qed.
Print Assumptions C79_ignore_refuted.
