(** Model of go/internal/u24 and go/internal/frames. *)
From Coq Require Import List NArith Bool.
From Verif Require Import Base.
Import ListNotations.
Open Scope N_scope.

(** ** 24-bit numbers *)

(** go/internal/u24/u24.go:10 MaxUint24. *)
Definition MaxUint24 : N := 16777215.

(** go/internal/u24/u24.go:13 errExceedMaxUint24 (the only error produced). *)
Inductive u24_error := ExceedMaxUint24.

(** go/internal/u24/u24.go:56-64 NewUint24: the error is set but the truncated bytes are returned too. *)
Definition NewUint24 (v : N) : bytes * option u24_error :=
  ([u8 (N.shiftr v 16); u8 (N.shiftr v 8); u8 v],
   if MaxUint24 <? v then Some ExceedMaxUint24 else None).

(** go/internal/u24/u24.go:47-53 MustNewUint24. *)
Definition MustNewUint24 (v : N) : outcome u24_error bytes :=
  match NewUint24 v with
  | (_, Some _) => Panic
  | (b, None) => Ret b
  end.

(** go/internal/u24/u24.go:73-80 WriteUint24 onto a writer that never fails; the writer is the list of
    bytes written so far. *)
Definition WriteUint24 (w : bytes) (n : N) : bytes * option u24_error :=
  match NewUint24 n with
  | (_, Some e) => (w, Some e)
  | (b, None) => (w ++ b, None)
  end.

(** go/internal/u24/u24.go:83-86 ReadUint24ToInt, and :42-44 AsInt composed with :67-70 NewUint24Bytes. *)
Definition ReadUint24ToInt (p : bytes) : outcome u24_error N :=
  match p with
  | b0 :: b1 :: b2 :: _ => Ret (N.shiftl b0 16 + N.shiftl b1 8 + b2)
  | _ => Panic
  end.

(** ** Frame types and flags *)

(** go/internal/frames/types.go:12-27 frame type numbers used by the code. *)
Definition FrameTypeRequestResponse : N := 0x04.
Definition FrameTypeRequestFNF : N := 0x05.
Definition FrameTypeRequestStream : N := 0x06.
Definition FrameTypeRequestChannel : N := 0x07.
Definition FrameTypeRequestN : N := 0x08.
Definition FrameTypeCancel : N := 0x09.
Definition FrameTypePayload : N := 0x0A.
Definition FrameTypeError : N := 0x0B.

(** go/internal/frames/types.go:94-100 flags. *)
Definition FlagNext : N := N.shiftl 1 5.
Definition FlagComplete : N := N.shiftl 1 6.
Definition FlagFollow : N := N.shiftl 1 7.
Definition FlagMetadata : N := N.shiftl 1 8.
Definition FlagIgnore : N := N.shiftl 1 9.

(** go/internal/frames/types.go:107-109 FrameFlag.Check. *)
Definition Check (f flag : N) : bool := N.land flag f =? flag.

(** ** Frame header *)

(** go/internal/frames/frame_header.go:12 FrameHeaderLen. *)
Definition FrameHeaderLen : N := 6.

(** go/internal/frames/frame_header.go:83,98 [uint16(frameType)<<10|uint16(fg)] in 16-bit arithmetic. *)
Definition pack_type_flags (ty fg : N) : N := N.lor (u16 (N.shiftl ty 10)) (u16 fg).

(** go/internal/frames/frame_header.go:80-85 NewFrameHeader. *)
Definition NewFrameHeader (sid ty fg : N) : bytes := be 4 sid ++ be 2 (pack_type_flags ty fg).

(** go/internal/frames/frame_header.go:96-99 ResetFrameHeader: writes at the start of the buffer. *)
Definition ResetFrameHeader {E} (b : bytes) (sid ty fg : N) : outcome E bytes :=
  do b1 <- put_at b 0 (be 4 sid) ;
  put_at b1 4 (be 2 (pack_type_flags ty fg)).

(** go/internal/frames/frame_header.go:102-107 ParseFrameHeader. *)
Definition ParseFrameHeader {E} (bs : bytes) : outcome E bytes := slice_to bs FrameHeaderLen.

(** go/internal/frames/frame_header.go:56-58 StreamID. *)
Definition hdr_stream_id (h : bytes) : N := N.land (unbe (firstn 4 h)) 0x7FFFFFFF.
(** go/internal/frames/frame_header.go:75-77 n. *)
Definition hdr_n (h : bytes) : N := unbe (firstn 2 (skipn 4 h)).
(** go/internal/frames/frame_header.go:61-63 Type. *)
Definition hdr_type (h : bytes) : N := N.shiftr (N.land (hdr_n h) 0xFC00) 10.
(** go/internal/frames/frame_header.go:66-68 Flag. *)
Definition hdr_flag (h : bytes) : N := N.land (hdr_n h) 0x03FF.

(** ** Frames *)

(** go/internal/frames/payload.go:9-16 Payload. *)
Record payload_frame := mkPayload {
  pf_stream_id : N; pf_metadata : bytes; pf_data : bytes;
  pf_follows : bool; pf_complete : bool; pf_next : bool }.

(** go/internal/frames/request_payload.go:14-22 RequestPayload. *)
Record request_frame := mkRequest {
  rf_type : N; rf_stream_id : N; rf_metadata : bytes; rf_data : bytes;
  rf_follows : bool; rf_complete : bool; rf_initial_n : N }.

(** go/internal/frames/frame.go:3-9 Frame: the implementations found in the package. *)
Inductive frame :=
| FCancel (sid : N)                          (* go/internal/frames/cancel.go:5-7 *)
| FRequestN (sid n : N)                      (* go/internal/frames/request_n.go:9-12 *)
| FError (sid code : N) (data : bytes)       (* go/internal/frames/error.go:9-13 *)
| FPayload (p : payload_frame)
| FRequest (r : request_frame).

(** Decoding returns no error anywhere in the package; it can only panic. *)
Inductive no_error := .

(** go/internal/frames/cancel.go:17-23 Cancel.Decode. *)
Definition cancel_decode (h _payload : bytes) : outcome no_error frame := Ret (FCancel (hdr_stream_id h)).

(** go/internal/frames/cancel.go:25-27 Cancel.Encode. *)
Definition cancel_encode (sid : N) (buf : bytes) : outcome no_error bytes :=
  ResetFrameHeader buf sid FrameTypeCancel 0.

(** go/internal/frames/request_n.go:22-31 RequestN.Decode. *)
Definition requestn_decode (h payload : bytes) : outcome no_error frame :=
  do n <- get_be 4 payload ;
  Ret (FRequestN (hdr_stream_id h) n).

(** go/internal/frames/request_n.go:33-38 RequestN.Encode. *)
Definition requestn_encode (sid n : N) (buf : bytes) : outcome no_error bytes :=
  do b <- ResetFrameHeader buf sid FrameTypeRequestN 0 ;
  put_at b FrameHeaderLen (be 4 n).

(** go/internal/frames/error.go:23-34 Error.Decode. *)
Definition error_decode (h payload : bytes) : outcome no_error frame :=
  do code <- get_be 4 payload ;
  do data <- slice_from payload 4 ;
  Ret (FError (hdr_stream_id h) code data).

(** go/internal/frames/error.go:36-43 Error.Encode. *)
Definition error_encode (sid code : N) (data : bytes) (buf : bytes) : outcome no_error bytes :=
  do b <- ResetFrameHeader buf sid FrameTypeError 0 ;
  do b <- put_at b FrameHeaderLen (be 4 code) ;
  copy_at b (FrameHeaderLen + 4) data.

(** go/internal/frames/payload.go:34-41 and request_payload.go:49-56: the optional 24-bit length prefixed
    metadata; returns metadata and the rest of the payload. *)
Definition decode_metadata (has : bool) (payload : bytes) : outcome no_error (bytes * bytes) :=
  if has then
    do l3 <- slice_to payload 3 ;
    let mdLength := unbe (0 :: l3) in
    do payload <- slice_from payload 3 ;
    do md <- slice_to payload mdLength ;
    do payload <- slice_from payload mdLength ;
    Ret (md, payload)
  else Ret ([], payload).

(** go/internal/frames/payload.go:26-53 Payload.Decode. *)
Definition payload_decode (h payload : bytes) : outcome no_error frame :=
  let flags := hdr_flag h in
  do (md, rest) <- decode_metadata (Check flags FlagMetadata) payload ;
  Ret (FPayload {| pf_stream_id := hdr_stream_id h; pf_metadata := md; pf_data := rest;
         pf_follows := Check flags FlagFollow; pf_complete := Check flags FlagComplete;
         pf_next := Check flags FlagNext |}).

(** [if c { flags |= f }]. *)
Definition or_flag (c : bool) (f flags : N) : N := if c then N.lor flags f else flags.

(** go/internal/frames/payload.go:75-84 and request_payload.go:91-100: optional metadata, then data, written
    from offset [off]. *)
Definition encode_body (md data : bytes) (off : N) (buf : bytes) : outcome no_error bytes :=
  let metadataLen := u32 (len md) in
  if 0 <? metadataLen then
    do b <- put_at buf off (skipn 1 (be 4 metadataLen)) ;
    do b <- copy_at b (off + 3) md ;
    copy_at b (off + 3 + metadataLen) data
  else copy_at buf off data.

(** go/internal/frames/payload.go:58-70 flag word of Payload.Encode. *)
Definition payload_flags (p : payload_frame) : N :=
  or_flag (0 <? u32 (len (pf_metadata p))) FlagMetadata
   (or_flag (pf_next p) FlagNext
     (or_flag (pf_complete p) FlagComplete
       (or_flag (pf_follows p) FlagFollow 0))).

(** go/internal/frames/payload.go:55-85 Payload.Encode. *)
Definition payload_encode (p : payload_frame) (buf : bytes) : outcome no_error bytes :=
  do b <- ResetFrameHeader buf (pf_stream_id p) FrameTypePayload (payload_flags p) ;
  encode_body (pf_metadata p) (pf_data p) FrameHeaderLen b.

(** [f.FrameType == FrameTypeRequestStream || f.FrameType == FrameTypeRequestChannel]
    (go/internal/frames/request_payload.go:40,86,105,129). *)
Definition has_initial_n (ty : N) : bool := (ty =? FrameTypeRequestStream) || (ty =? FrameTypeRequestChannel).

(** go/internal/frames/request_payload.go:32-69 RequestPayload.Decode. *)
Definition request_decode (h payload : bytes) : outcome no_error frame :=
  let ty := hdr_type h in
  let flags := hdr_flag h in
  do (n, payload) <- (if has_initial_n ty then
                        do n <- get_be 4 payload ;
                        do rest <- slice_from payload 4 ;
                        Ret (n, rest)
                      else Ret (1, payload)) ;
  let complete := if ty =? FrameTypeRequestChannel then Check flags FlagComplete else true in
  do (md, rest) <- decode_metadata (Check flags FlagMetadata) payload ;
  Ret (FRequest {| rf_type := ty; rf_stream_id := hdr_stream_id h; rf_metadata := md; rf_data := rest;
         rf_follows := Check flags FlagFollow; rf_complete := complete; rf_initial_n := n |}).

(** go/internal/frames/request_payload.go:74-81 flag word of RequestPayload.Encode (FlagFollow is never set). *)
Definition request_flags (r : request_frame) : N :=
  or_flag (0 <? u32 (len (rf_metadata r))) FlagMetadata
   (or_flag ((rf_type r =? FrameTypeRequestChannel) && rf_complete r) FlagComplete 0).

(** go/internal/frames/request_payload.go:71-101 RequestPayload.Encode. *)
Definition request_encode (r : request_frame) (buf : bytes) : outcome no_error bytes :=
  do b <- ResetFrameHeader buf (rf_stream_id r) (rf_type r) (request_flags r) ;
  if has_initial_n (rf_type r) then
    do b <- put_at b FrameHeaderLen (be 4 (rf_initial_n r)) ;
    encode_body (rf_metadata r) (rf_data r) (FrameHeaderLen + 4) b
  else encode_body (rf_metadata r) (rf_data r) FrameHeaderLen b.

(** go/internal/frames/payload.go:87-96 Payload.Size, uint32 arithmetic. *)
Definition payload_size (p : payload_frame) : N :=
  let size := u32 (FrameHeaderLen + u32 (len (pf_metadata p) + len (pf_data p))) in
  if 0 <? u32 (len (pf_metadata p)) then u32 (size + 3) else size.

(** go/internal/frames/request_payload.go:103-115 RequestPayload.Size, uint32 arithmetic. *)
Definition request_size (r : request_frame) : N :=
  let size := if has_initial_n (rf_type r) then FrameHeaderLen + 4 else FrameHeaderLen in
  let size := u32 (size + u32 (len (rf_metadata r) + len (rf_data r))) in
  if 0 <? u32 (len (rf_metadata r)) then u32 (size + 3) else size.

(** Frame.Size: cancel.go:29-31, request_n.go:40-42, error.go:45-47, payload.go:87-96,
    request_payload.go:103-115. *)
Definition frame_size (f : frame) : N :=
  match f with
  | FCancel _ => FrameHeaderLen
  | FRequestN _ _ => FrameHeaderLen + 4
  | FError _ _ data => u32 (FrameHeaderLen + 4 + len data)
  | FPayload p => payload_size p
  | FRequest r => request_size r
  end.

(** Frame.Encode: dynamic dispatch of go/internal/frames/frame.go:8. *)
Definition frame_encode (f : frame) (buf : bytes) : outcome no_error bytes :=
  match f with
  | FCancel sid => cancel_encode sid buf
  | FRequestN sid n => requestn_encode sid n buf
  | FError sid code data => error_encode sid code data buf
  | FPayload p => payload_encode p buf
  | FRequest r => request_encode r buf
  end.

(** The idiom [buf := make([]byte, f.Size()); f.Encode(buf)] used by the senders
    (go/transport/rsocket/tcp_conn.go:99-111 and the wasmrs transports). *)
Definition frame_bytes (f : frame) : outcome no_error bytes :=
  frame_encode f (repeat 0 (N.to_nat (frame_size f))).

(** Choice of the Decode method from the header type, as made by the receivers
    (go/transport/rsocket/tcp_conn.go:52-94). [None]: a type no receiver decodes ("unknown frame"). *)
Definition frame_decode (h payload : bytes) : outcome no_error (option frame) :=
  let ty := hdr_type h in
  if (FrameTypeRequestResponse <=? ty) && (ty <=? FrameTypeRequestChannel)
  then do f <- request_decode h payload ; Ret (Some f)
  else if ty =? FrameTypeRequestN then do f <- requestn_decode h payload ; Ret (Some f)
  else if ty =? FrameTypeCancel then do f <- cancel_decode h payload ; Ret (Some f)
  else if ty =? FrameTypePayload then do f <- payload_decode h payload ; Ret (Some f)
  else if ty =? FrameTypeError then do f <- error_decode h payload ; Ret (Some f)
  else Ret None.

(** A received frame: header then body (go/transport/rsocket/tcp_conn.go:49-94). *)
Definition frame_parse (bs : bytes) : outcome no_error (option frame) :=
  do h <- ParseFrameHeader bs ;
  do payload <- slice_from bs FrameHeaderLen ;
  frame_decode h payload.

(** ** Fragmentation *)

(** go/internal/frames/util.go:17-61 splitPayloads; one element of the result per loop iteration.
    [None] means the loop is still running after [fuel] iterations. uint32 arithmetic throughout. *)
Fixpoint splitPayloads (fuel : nat) (sid : N) (next complete : bool) (maxFrameSize : N)
         (data metadata : bytes) : option (list payload_frame) :=
  match fuel with
  | O => None
  | S fuel' =>
    let lenMd := u32 (len metadata) in
    let lenData := u32 (len data) in
    if u32 (lenMd + lenData) =? 0 then Some []
    else
      let nonDataSize := if 0 <? lenMd then FrameHeaderLen + 3 else FrameHeaderLen in
      let space := sub32 maxFrameSize nonDataSize in
      let follows := maxFrameSize <? u32 (nonDataSize + lenMd + lenData) in
      let '(metadataFrag, dataFrag, metadata', data') :=
        if space <? lenMd
        then (firstn (N.to_nat space) metadata, [], skipn (N.to_nat space) metadata, data)
        else if sub32 space lenMd <? lenData
             then let dataSpace := N.min (sub32 space lenMd) lenData in
                  (metadata, firstn (N.to_nat dataSpace) data, [], skipn (N.to_nat dataSpace) data)
             else (metadata, data, [], []) in
      match splitPayloads fuel' sid next complete maxFrameSize data' metadata' with
      | None => None
      | Some fs => Some ({| pf_stream_id := sid; pf_metadata := metadataFrag; pf_data := dataFrag;
                            pf_follows := follows; pf_complete := negb follows && complete;
                            pf_next := negb follows && next |} :: fs)
      end
  end.

(** go/internal/frames/payload.go:98-105 Payload.Fragment. Outer [None]: still running; [Some None]: nil. *)
Definition payload_fragment (fuel : nat) (p : payload_frame) (maxFrameSize : N)
  : option (option (list payload_frame)) :=
  if payload_size p <=? maxFrameSize then Some None
  else match splitPayloads fuel (pf_stream_id p) (pf_next p) (pf_complete p) maxFrameSize
               (pf_data p) (pf_metadata p) with
       | None => None
       | Some fs => Some (Some fs)
       end.

(** go/internal/frames/request_payload.go:117-166 RequestPayload.Fragment; slice bounds violations are
    [Panic]. *)
Definition request_fragment (fuel : nat) (r : request_frame) (maxFrameSize : N)
  : option (outcome no_error (option (request_frame * list payload_frame))) :=
  let size := request_size r in
  if size <=? maxFrameSize then Some (Ret None)
  else
    let metadata := rf_metadata r in
    let data := rf_data r in
    let nonDataSize := if has_initial_n (rf_type r) then FrameHeaderLen + 4 else FrameHeaderLen in
    let maxMDSize := sub32 (sub32 maxFrameSize nonDataSize) 3 in
    let lenMd := u32 (len metadata) in
    let first :=
      if maxMDSize <=? lenMd then
        do frag <- slice_to metadata maxMDSize ;
        do rest <- slice_from metadata maxMDSize ;
        Ret (frag, [], rest, data)
      else
        let diff := sub32 size maxFrameSize in
        let dataOff := sub32 (u32 (len data)) diff in
        do frag <- slice_to data dataOff ;
        do rest <- slice_from data dataOff ;
        Ret (metadata, frag, metadata, rest) in
    match first with
    | Panic => Some Panic
    | Fail e => Some (Fail e)
    | Ret (mdFrag, dataFrag, metadata', data') =>
      match splitPayloads fuel (rf_stream_id r) true (rf_complete r) maxFrameSize data' metadata' with
      | None => None
      | Some fs =>
        Some (Ret (Some ({| rf_type := rf_type r; rf_stream_id := rf_stream_id r;
                            rf_metadata := mdFrag; rf_data := dataFrag; rf_follows := true;
                            rf_complete := false; rf_initial_n := rf_initial_n r |}, fs)))
      end
    end.
