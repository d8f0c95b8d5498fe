(** What the frame layer is expected to do, stated without the model's helpers.
    Source: the RSocket frame layout (docs/wasmrs.md, "Binary Frame Format"). *)
From Coq Require Import List NArith Bool.
From Verif Require Import Base FramesModel.
Import ListNotations.
Open Scope N_scope.

(** Big-endian bytes by positional arithmetic. *)
Definition bytes2 (v : N) : bytes := [v / 256 mod 256; v mod 256].
Definition bytes3 (v : N) : bytes := [v / 65536 mod 256; v / 256 mod 256; v mod 256].
Definition bytes4 (v : N) : bytes := [v / 16777216 mod 256; v / 65536 mod 256; v / 256 mod 256; v mod 256].

Definition bit (b : bool) (w : N) : N := if b then w else 0.
Definition nonempty {A} (l : list A) : bool := match l with [] => false | _ => true end.

(** Header: 31-bit stream id, 6-bit type, 10 flag bits (N=32, C=64, F=128, M=256). *)
Definition wire_header (sid ty flags : N) : bytes := bytes4 sid ++ bytes2 (ty * 1024 + flags).

(** Metadata travels behind a 24-bit length, and only when there is some. *)
Definition wire_metadata (md : bytes) : bytes :=
  if nonempty md then bytes3 (len md) ++ md else [].

Definition is_stream_or_channel (ty : N) : bool := (ty =? 6) || (ty =? 7).

(** The bytes each frame stands for on the wire. *)
Definition wire (f : frame) : bytes :=
  match f with
  | FCancel sid => wire_header sid 9 0
  | FRequestN sid n => wire_header sid 8 0 ++ bytes4 n
  | FError sid code data => wire_header sid 11 0 ++ bytes4 code ++ data
  | FPayload p =>
      wire_header (pf_stream_id p) 10
        (bit (pf_next p) 32 + bit (pf_complete p) 64 + bit (pf_follows p) 128
         + bit (nonempty (pf_metadata p)) 256)
      ++ wire_metadata (pf_metadata p) ++ pf_data p
  | FRequest r =>
      wire_header (rf_stream_id r) (rf_type r)
        (bit ((rf_type r =? 7) && rf_complete r) 64 + bit (nonempty (rf_metadata r)) 256)
      ++ (if is_stream_or_channel (rf_type r) then bytes4 (rf_initial_n r) else [])
      ++ wire_metadata (rf_metadata r) ++ rf_data r
  end.

(** Total size limit below which no 32-bit size computation wraps. *)
Definition fits32 (md data : bytes) : Prop := len md + len data < 2^32 - 13.

(** Fields in the range of their Go type, with a 31-bit stream id; sizes below 4 GiB. Metadata is not
    bounded by 2^24 here. *)
Definition frame_in_range (f : frame) : Prop :=
  match f with
  | FCancel sid => sid < 2^31
  | FRequestN sid n => sid < 2^31 /\ n < 2^32
  | FError sid code data => sid < 2^31 /\ code < 2^32 /\ len data < 2^32 - 13
  | FPayload p => pf_stream_id p < 2^31 /\ fits32 (pf_metadata p) (pf_data p)
  | FRequest r => rf_stream_id r < 2^31 /\ 4 <= rf_type r <= 7 /\ rf_initial_n r < 2^32
                  /\ fits32 (rf_metadata r) (rf_data r)
  end.

Definition frame_metadata (f : frame) : bytes :=
  match f with
  | FPayload p => pf_metadata p
  | FRequest r => rf_metadata r
  | _ => []
  end.

(** What a request frame carries over the wire: everything but the follows mark, the credit of
    single-answer requests and the complete mark of non-channel requests. *)
Definition request_on_wire (r : request_frame) : request_frame :=
  {| rf_type := rf_type r; rf_stream_id := rf_stream_id r; rf_metadata := rf_metadata r;
     rf_data := rf_data r; rf_follows := false;
     rf_complete := if rf_type r =? 7 then rf_complete r else true;
     rf_initial_n := if is_stream_or_channel (rf_type r) then rf_initial_n r else 1 |}.

(** The frame a receiver is expected to see. *)
Definition on_wire (f : frame) : frame :=
  match f with FRequest r => FRequest (request_on_wire r) | _ => f end.

(** Reassembly of a fragment sequence, as the RSocket specification describes it: metadata and data are
    concatenated, next/complete are those of the last fragment. *)
Definition reassemble_metadata (fs : list payload_frame) : bytes := concat (map pf_metadata fs).
Definition reassemble_data (fs : list payload_frame) : bytes := concat (map pf_data fs).

(** All but the last fragment are marked "follows" and carry neither next nor complete; the last one
    carries the given marks. *)
Definition marks_ok (next complete : bool) (fs : list payload_frame) : Prop :=
  exists front last,
    fs = front ++ [last]
    /\ Forall (fun p => pf_follows p = true /\ pf_next p = false /\ pf_complete p = false) front
    /\ pf_follows last = false /\ pf_next last = next /\ pf_complete last = complete.
