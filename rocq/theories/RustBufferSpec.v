(** Frames laid out in a buffer. *)
From Coq Require Import List NArith Bool.
From Verif Require Import Base FramesModel FramesSpec BatchSpec RustFramesModel RustFramesSpec RustCallModel RustBufferModel.
Import ListNotations.
Open Scope N_scope.

(** The bytes of frames, each behind its length. *)
Definition laid (bs : list bytes) : bytes := concat (map (fun b => bytes3 (len b) ++ b) bs).

(** The Rust side has the frame the Go side sent. *)
Definition means (f : frame) (g : rframe) : Prop := consistent g /\ says (go_view g) = on_wire f.

(** The Go side can send a frame through a buffer of this size, and the Rust side can read it. *)
Definition goes_through (size : N) (f : frame) : Prop := sendable f /\ 3 + len (wire f) <= size /\ wf (wire f) /\ readable_text f.

(** A vector holds no more than its capacity. *)
Definition room_ok (st : hbuf) : Prop := len (v_bytes (h_vec st)) <= v_cap (h_vec st).

(** The Rust side can send a frame through a buffer of this size. *)
Definition crosses (size : N) (g : rframe) : Prop := frame_in_range (go_view g) /\ len (wire (go_view g)) < 2^24 /\ 3 + len (wire (go_view g)) <= size.
