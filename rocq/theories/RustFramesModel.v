(** Model of the frame codec of the Rust implementation of the same protocol: rust/crates/wasmrs/src/frames and
    rust/crates/wasmrs/src/util.rs. Paths below are relative to rust/crates/wasmrs/src.
    Simplifications: [Bytes] is a list of bytes; [String::from_utf8] accepts exactly what Go's utf8.Valid accepts
    ([CustomModel.utf8_valid]); allocation always succeeds; the lengths cast with [as u32] wrap at 2^32. *)
From Coq Require Import List NArith Bool.
From Verif Require Import Base CustomModel.
Import ListNotations.
Open Scope N_scope.

(** frames/mod.rs:58-78 FrameType. *)
Inductive rtype := TReserved | TSetup | TLease | TKeepalive | TRequestResponse | TRequestFnf | TRequestStream | TRequestChannel | TRequestN | TCancel
  | TPayload | TErr | TMetadataPush | TResume | TResumeOk | TExt.

(** frames/mod.rs:105-128 TryFrom<u8> for FrameType. *)
Definition rtype_try_from (index : N) : option rtype :=
  match index with
  | 0 => Some TReserved | 1 => Some TSetup | 2 => Some TLease | 3 => Some TKeepalive | 4 => Some TRequestResponse | 5 => Some TRequestFnf
  | 6 => Some TRequestStream | 7 => Some TRequestChannel | 8 => Some TRequestN | 9 => Some TCancel | 10 => Some TPayload | 11 => Some TErr
  | 12 => Some TMetadataPush | 13 => Some TResume | 14 => Some TResumeOk | 63 => Some TExt | _ => None
  end.

(** frames/mod.rs:129-150 Into<u32> for FrameType: [unreachable!()] for Reserved. *)
Definition rtype_into {E} (t : rtype) : outcome E N :=
  match t with
  | TReserved => Panic | TSetup => Ret 1 | TLease => Ret 2 | TKeepalive => Ret 3 | TRequestResponse => Ret 4 | TRequestFnf => Ret 5
  | TRequestStream => Ret 6 | TRequestChannel => Ret 7 | TRequestN => Ret 8 | TCancel => Ret 9 | TPayload => Ret 10 | TErr => Ret 11
  | TMetadataPush => Ret 12 | TResume => Ret 13 | TResumeOk => Ret 14 | TExt => Ret 63
  end.

(** The derived equality of FrameType (frames/mod.rs:58). *)
Definition rtype_eqb (a b : rtype) : bool :=
  match a, b with
  | TReserved, TReserved | TSetup, TSetup | TLease, TLease | TKeepalive, TKeepalive | TRequestResponse, TRequestResponse | TRequestFnf, TRequestFnf
  | TRequestStream, TRequestStream | TRequestChannel, TRequestChannel | TRequestN, TRequestN | TCancel, TCancel | TPayload, TPayload | TErr, TErr
  | TMetadataPush, TMetadataPush | TResume, TResume | TResumeOk, TResumeOk | TExt, TExt => true
  | _, _ => false
  end.

(** frames/mod.rs:326-331 the header length and the flags. *)
Definition LEN_HEADER : N := 6.
Definition FLAG_IGNORE : N := N.shiftl 1 4.
Definition FLAG_NEXT : N := N.shiftl 1 5.
Definition FLAG_COMPLETE : N := N.shiftl 1 6.
Definition FLAG_FOLLOW : N := N.shiftl 1 7.
Definition FLAG_METADATA : N := N.shiftl 1 8.

(** The errors a frame decoder returns (error.rs WrongType, StringConversion). *)
Inductive rerr := WrongType | StringConversion.

(** Bytes::split_to: the first [at] bytes and the rest; panics when there are fewer. *)
Definition split_to {E} (b : bytes) (at_ : N) : outcome E (bytes * bytes) :=
  if at_ <=? len b then Ret (firstn (N.to_nat at_) b, skipn (N.to_nat at_) b) else Panic.

(** util.rs:6-13, 16-23, 26-33: from_u32_bytes, from_u16_bytes, from_u24_bytes assert the number of bytes they are given. *)
Definition from_bytes_n {E} (w : N) (b : bytes) : outcome E N := if len b =? w then Ret (unbe b) else Panic.

(** util.rs:37-43 to_u24_bytes of [num as u32]. *)
Definition to_u24_bytes (num : N) : bytes := skipn 1 (be 4 num).

(** ** The header *)

(** frames/header.rs:8-20 FrameHeader::new. [frame_type << 10] of a u16 loses the bits above 16. *)
Definition header_new {E} (sid : N) (t : rtype) (flags : N) : outcome E bytes :=
  do ty <- rtype_into t ;
  Ret (be 4 sid ++ be 2 (N.lor (u16 (N.shiftl ty 10)) flags)).

(** frames/header.rs:35-38 stream_id; [h] has the six bytes split off by Frame::decode. *)
Definition header_stream_id (h : bytes) : N :=
  match h with b0 :: rest => unbe (N.land b0 0x7f :: firstn 3 rest) | [] => 0 end.
(** frames/header.rs:40-42 n. *)
Definition header_n (h : bytes) : N := unbe (firstn 2 (skipn 4 h)).
(** frames/header.rs:44-47 frame_type: [unwrap] panics on a number that is no FrameType. *)
Definition header_frame_type {E} (h : bytes) : outcome E rtype :=
  match rtype_try_from (N.shiftr (nth 4 h 0) 2) with Some t => Ret t | None => Panic end.
(** frames/header.rs:49-51 check. *)
Definition header_check (h : bytes) (flag : N) : bool := N.land (header_n h) flag =? flag.

(** ** Frames *)

(** frames/f_payload.rs:11-24 PayloadFrame. *)
Record rpayload := mkRPayload { rp_sid : N; rp_metadata : bytes; rp_data : bytes; rp_follows : bool; rp_complete : bool; rp_next : bool }.
(** frames/request_payload.rs:10-24 RequestPayload. *)
Record rrequest := mkRRequest { rq_type : rtype; rq_sid : N; rq_metadata : bytes; rq_data : bytes; rq_follows : bool; rq_complete : bool; rq_initial_n : N }.

(** frames/mod.rs:265-274 Frame. *)
Inductive rframe :=
| RPayloadFrame (p : rpayload)
| RCancel (sid : N)                              (* frames/f_cancel.rs:9-12 *)
| RErrorFrame (sid code : N) (data : bytes)      (* frames/f_error.rs:10-15 *)
| RRequestN (sid n : N)                          (* frames/f_request_n.rs:10-14 *)
| RRequestResponse (r : rrequest)
| RRequestFnF (r : rrequest)
| RRequestStream (r : rrequest)
| RRequestChannel (r : rrequest).

(** [if c { flags |= f }]. *)
Definition set_flag (c : bool) (f flags : N) : N := if c then N.lor flags f else flags.
(** [bytes.is_empty()]. *)
Definition is_empty {A} (l : list A) : bool := match l with [] => true | _ => false end.

(** frames/f_payload.rs:92-107 get_flag. *)
Definition rpayload_flags (p : rpayload) : N :=
  set_flag (rp_follows p) FLAG_FOLLOW (set_flag (rp_next p) FLAG_NEXT (set_flag (rp_complete p) FLAG_COMPLETE
    (set_flag (negb (is_empty (rp_metadata p))) FLAG_METADATA 0))).

(** frames/f_payload.rs:74-84 and frames/request_payload.rs:102-114: the metadata behind its length, then the data. *)
Definition rbody (md data : bytes) : bytes :=
  if is_empty md then data else to_u24_bytes (u32 (len md)) ++ md ++ data.

(** frames/f_payload.rs:72-90 PayloadFrame::encode. *)
Definition rpayload_encode (p : rpayload) : outcome rerr bytes :=
  do h <- header_new (rp_sid p) TPayload (rpayload_flags p) ;
  Ret (h ++ rbody (rp_metadata p) (rp_data p)).

(** frames/request_payload.rs:45-54 get_flags. *)
Definition rrequest_flags (r : rrequest) : N :=
  set_flag (rq_complete r && rtype_eqb (rq_type r) TRequestChannel) FLAG_COMPLETE (set_flag (negb (is_empty (rq_metadata r))) FLAG_METADATA 0).

(** frames/request_payload.rs:85-87 is_multi. *)
Definition is_multi (t : rtype) : bool := rtype_eqb t TRequestChannel || rtype_eqb t TRequestStream.

(** frames/request_payload.rs:89-116 RequestPayload::encode. *)
Definition rrequest_encode (r : rrequest) : outcome rerr bytes :=
  do h <- header_new (rq_sid r) (rq_type r) (rrequest_flags r) ;
  Ret (h ++ (if is_multi (rq_type r) then be 4 (rq_initial_n r) else []) ++ rbody (rq_metadata r) (rq_data r)).

(** frames/mod.rs:424-435 Frame::encode, with f_cancel.rs:33-39, f_error.rs:41-54 and f_request_n.rs:38-46. *)
Definition rframe_encode (f : rframe) : outcome rerr bytes :=
  match f with
  | RPayloadFrame p => rpayload_encode p
  | RCancel sid => header_new sid TCancel 0
  | RErrorFrame sid code data => do h <- header_new sid TErr 0 ; Ret (h ++ be 4 code ++ data)
  | RRequestN sid n => do h <- header_new sid TRequestN 0 ; Ret (h ++ be 4 n)
  | RRequestResponse r | RRequestFnF r | RRequestStream r | RRequestChannel r => rrequest_encode r
  end.

(** frames/f_payload.rs:54-59 and frames/request_payload.rs:65-70: the metadata, if announced, and what follows it. *)
Definition rmetadata {E} (has : bool) (buffer : bytes) : outcome E (bytes * bytes) :=
  if has then
    do (l3, buffer) <- split_to buffer 3 ;
    do n <- from_bytes_n 3 l3 ;
    split_to buffer n
  else Ret ([], buffer).

(** frames/mod.rs:484-490 check_type. *)
Definition check_type (h : bytes) (want : rtype) : outcome rerr unit :=
  do t <- header_frame_type h ;
  if rtype_eqb t want then Ret tt else Fail WrongType.

(** frames/f_payload.rs:51-70 PayloadFrame::decode_frame. *)
Definition rpayload_decode (h buffer : bytes) : outcome rerr rpayload :=
  do _ <- check_type h TPayload ;
  do (md, rest) <- rmetadata (header_check h FLAG_METADATA) buffer ;
  Ret (mkRPayload (header_stream_id h) md rest (header_check h FLAG_FOLLOW) (header_check h FLAG_COMPLETE) (header_check h FLAG_NEXT)).

(** frames/request_payload.rs:56-83 RequestPayload::decode. *)
Definition rrequest_decode (h buffer : bytes) : outcome rerr rrequest :=
  do t <- header_frame_type h ;
  do (n, buffer) <- (if is_multi t then
                       do (n4, buffer) <- split_to buffer 4 ;
                       do n <- from_bytes_n 4 n4 ;
                       Ret (n, buffer)
                     else Ret (0, buffer)) ;
  do (md, rest) <- rmetadata (header_check h FLAG_METADATA) buffer ;
  Ret (mkRRequest t (header_stream_id h) md rest (header_check h FLAG_FOLLOW) (header_check h FLAG_COMPLETE) n).

(** frames/f_request_response.rs, f_request_fnf.rs, f_request_stream.rs, f_request_channel.rs: decode_frame (lines 35-38 in each). *)
Definition rtyped_decode (want : rtype) (h buffer : bytes) : outcome rerr rrequest :=
  do _ <- check_type h want ;
  rrequest_decode h buffer.

(** frames/f_error.rs:31-39 ErrorFrame::decode_frame. *)
Definition rerror_decode (h buffer : bytes) : outcome rerr rframe :=
  do _ <- check_type h TErr ;
  do (c4, buffer) <- split_to buffer 4 ;
  do code <- from_bytes_n 4 c4 ;
  if utf8_valid buffer then Ret (RErrorFrame (header_stream_id h) code buffer) else Fail StringConversion.

(** frames/f_request_n.rs:30-36 RequestN::decode_frame. *)
Definition rrequestn_decode (h buffer : bytes) : outcome rerr rframe :=
  do _ <- check_type h TRequestN ;
  do (n4, _) <- split_to buffer 4 ;
  do n <- from_bytes_n 4 n4 ;
  Ret (RRequestN (header_stream_id h) n).

(** frames/mod.rs:398-420 Frame::_decode: [todo!()] and [unreachable!()] panic. *)
Definition rframe_decode_body (h buffer : bytes) : outcome rerr rframe :=
  do t <- header_frame_type h ;
  match t with
  | TReserved | TSetup | TExt => Panic
  | TRequestResponse => do r <- rtyped_decode TRequestResponse h buffer ; Ret (RRequestResponse r)
  | TRequestFnf => do r <- rtyped_decode TRequestFnf h buffer ; Ret (RRequestFnF r)
  | TRequestStream => do r <- rtyped_decode TRequestStream h buffer ; Ret (RRequestStream r)
  | TRequestChannel => do r <- rtyped_decode TRequestChannel h buffer ; Ret (RRequestChannel r)
  | TRequestN => rrequestn_decode h buffer
  | TCancel => Ret (RCancel (header_stream_id h))
  | TPayload => do p <- rpayload_decode h buffer ; Ret (RPayloadFrame p)
  | TErr => rerror_decode h buffer
  | TLease | TKeepalive | TMetadataPush | TResume | TResumeOk => Panic
  end.

(** frames/mod.rs:392-396 Frame::decode. The stream id paired with the error is left out. *)
Definition rframe_decode (b : bytes) : outcome rerr rframe :=
  do (h, buffer) <- split_to b LEN_HEADER ;
  rframe_decode_body h buffer.

(** ** What the callers build *)

(** frames/mod.rs:512-532 the flag tests. *)
Definition has_flag (flags f : N) : bool := N.land flags f =? f.

(** frames/request_payload.rs:27-43 from_payload: metadata and data as [unwrap_or_default] leaves them. *)
Definition rrequest_from_payload (sid : N) (md data : option bytes) (t : rtype) (flags initial_n : N) : rrequest :=
  mkRRequest t sid (match md with Some b => b | None => [] end) (match data with Some b => b | None => [] end) (has_flag flags FLAG_FOLLOW) (has_flag flags FLAG_COMPLETE) initial_n.
(** frames/f_payload.rs:27-36 from_payload. *)
Definition rpayload_from_payload (sid : N) (md data : option bytes) (flags : N) : rpayload :=
  mkRPayload sid (match md with Some b => b | None => [] end) (match data with Some b => b | None => [] end) (has_flag flags FLAG_FOLLOW) (has_flag flags FLAG_COMPLETE) (has_flag flags FLAG_NEXT).

(** frames/mod.rs:438-479 the constructors. *)
Definition new_error (sid code : N) (data : bytes) : rframe := RErrorFrame sid code data.
Definition new_cancel (sid : N) : rframe := RCancel sid.
Definition new_request_n (sid n _flags : N) : rframe := RRequestN sid n.
Definition new_request_response (sid : N) (md data : option bytes) (flags : N) : rframe := RRequestResponse (rrequest_from_payload sid md data TRequestResponse flags 0).
Definition new_request_stream (sid : N) (md data : option bytes) (flags : N) : rframe := RRequestStream (rrequest_from_payload sid md data TRequestStream flags 0).
Definition new_request_channel (sid : N) (md data : option bytes) (flags initial_n : N) : rframe :=
  RRequestChannel (rrequest_from_payload sid md data TRequestChannel flags initial_n).
Definition new_request_fnf (sid : N) (md data : option bytes) (flags : N) : rframe := RRequestFnF (rrequest_from_payload sid md data TRequestFnf flags 0).
Definition new_payload (sid : N) (md data : option bytes) (flags : N) : rframe := RPayloadFrame (rpayload_from_payload sid md data flags).

(** util.rs:46-54 read_frame from a slice: [None] is the error of [read_exact]. *)
Definition read_frame (buf : bytes) : option (bytes * bytes) :=
  match split_to (E := rerr) buf 3 with
  | Ret (l3, rest) => match split_to (E := rerr) rest (unbe l3) with Ret (f, rest') => Some (f, rest') | _ => None end
  | _ => None
  end.
