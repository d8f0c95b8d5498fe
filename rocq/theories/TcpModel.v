(** Model of frames on a TCP connection: go/transport/rsocket/decoder.go, tcp_conn.go (Read, Write, Flush) and the reading loop of
    transport.go (Start).  Code only; no proofs.

    The parts of Go's package bufio they stand on are modelled in detail: Scanner.Scan with its buffer (shifting, growing, errors), and
    Writer.Write and Flush.  A connection is what the calls of its Read return, given enough space, and the error that comes in the end.
    Not modelled: deadlines, contexts, the accepting of connections, TLS. *)
From Coq Require Import List NArith Bool.
From Verif Require Import Base FramesModel.
Import ListNotations.
Open Scope N_scope.

(** decoder.go:12-16. *)
Definition lengthFieldSize : N := 3.
Definition minBuffSize : N := 8192.
Definition maxBuffSize : N := 16777219.

(** Errors met while reading.  [ConnErr true] stands for those isClosedErr (misc.go:8-19) accepts, [ConnErr false] for all others the
    connection may return. *)
Inductive tcp_error := EOF | InvalidFrameLength | TooLong | NoProgress | IncompleteHeader | UnknownFrame | ConnErr (closed : bool).

(** ** The connection, as a reader *)

(** r_chunks: what arrives, piece by piece.  r_final: the error returned in the end.  r_with: it comes together with the last piece
    (package io allows both). *)
Record reader := mkReader { r_chunks : list bytes; r_final : tcp_error; r_with : bool }.

(** One call of Read with room for [space] bytes: bytes, error, and the connection afterwards. *)
Definition conn_read (r : reader) (space : N) : bytes * option tcp_error * reader :=
  match r_chunks r with
  | [] => ([], Some (r_final r), r)
  | c :: rest =>
      if len c <=? space
      then (c, match rest with [] => if r_with r then Some (r_final r) else None | _ => None end, mkReader rest (r_final r) (r_with r))
      else (firstn (N.to_nat space) c, None, mkReader (skipn (N.to_nat space) c :: rest) (r_final r) (r_with r))
  end.

(** ** bufio.Scanner *)

(** s_old: the buffers allocated before the present one, oldest first; frames handed out may still refer to them.
    s_buf, s_start, s_end, s_err: buf, start, end, err of the scanner. *)
Record scanner := mkScanner { s_old : list bytes; s_buf : bytes; s_start : N; s_end : N; s_err : option tcp_error }.

(** A slice of one of the buffers: which one, offset, length. *)
Record view := mkView { v_buf : nat; v_off : N; v_len : N }.
Definition memory (s : scanner) : list bytes := s_old s ++ [s_buf s].
Definition view_bytes (mem : list bytes) (v : view) : bytes := firstn (N.to_nat (v_len v)) (skipn (N.to_nat (v_off v)) (nth (v_buf v) mem [])).

(** decoder.go:64-70 NewLengthBasedFrameDecoder. *)
Definition new_scanner : scanner := mkScanner [] (repeat 0 (N.to_nat minBuffSize)) 0 0 None.

(** decoder.go:44-61 doSplit: how far to advance and the length of the token (it starts where [data] does), if there is one. *)
Definition doSplit (data : bytes) (eof : bool) : outcome tcp_error (N * option N) :=
  if eof then Ret (0, None)
  else if len data <? lengthFieldSize then Ret (0, None)
  else match ReadUint24ToInt data with
       | Ret frameLength =>
           if frameLength <? 1 then Fail InvalidFrameLength
           else let frameSize := frameLength + lengthFieldSize in
                if frameSize <=? len data then Ret (frameSize, Some frameSize) else Ret (0, None)
       | _ => Panic
       end.

(** bufio/scan.go setErr: a later error does not replace the first, unless that is io.EOF. *)
Definition setErr (s : scanner) (e : tcp_error) : scanner :=
  mkScanner (s_old s) (s_buf s) (s_start s) (s_end s) (match s_err s with None | Some EOF => Some e | Some e0 => Some e0 end).

Definition data_of (s : scanner) : bytes := firstn (N.to_nat (s_end s - s_start s)) (skipn (N.to_nat (s_start s)) (s_buf s)).

(** bufio/scan.go Scan: the shifting of the data to the front of the buffer. *)
Definition shift (s : scanner) : scanner :=
  if (0 <? s_start s) && ((s_end s =? len (s_buf s)) || (len (s_buf s) / 2 <? s_start s))
  then mkScanner (s_old s) (overlay (s_buf s) (data_of s)) 0 (s_end s - s_start s) (s_err s)
  else s.

(** bufio/scan.go Scan: the growing of a full buffer; [None]: it has its maximal size already (ErrTooLong). *)
Definition grow (s : scanner) : option scanner :=
  if s_end s =? len (s_buf s) then
    if maxBuffSize <=? len (s_buf s) then None
    else let newSize := N.min (len (s_buf s) * 2) maxBuffSize in
         Some (mkScanner (s_old s ++ [s_buf s]) (overlay (repeat 0 (N.to_nat newSize)) (data_of s)) 0 (s_end s - s_start s) (s_err s))
  else Some s.

(** bufio/scan.go Scan: the inner loop around Read; [left] more reads may return nothing. *)
Definition maxConsecutiveEmptyReads : nat := 100.
Definition store (s : scanner) (d : bytes) : scanner :=
  mkScanner (s_old s) (firstn (N.to_nat (s_end s)) (s_buf s) ++ overlay (skipn (N.to_nat (s_end s)) (s_buf s)) d) (s_start s) (s_end s + len d) (s_err s).
Fixpoint read_loop (left : nat) (s : scanner) (r : reader) : scanner * reader :=
  let '(d, e, r') := conn_read r (len (s_buf s) - s_end s) in
  let s' := store s d in
  match e with
  | Some e => (setErr s' e, r')
  | None => if 0 <? len d then (s', r')
            else match left with
                 | O => (setErr s' NoProgress, r')
                 | S left' => read_loop left' s' r'
                 end
  end.

(** bufio/scan.go Scan: [true] with the token, or [false]; [None]: still running after [fuel] rounds of the outer loop. *)
Fixpoint Scan (fuel : nat) (s : scanner) (r : reader) : option (option view * scanner * reader) :=
  match fuel with
  | O => None
  | S fuel' =>
    let read_more s :=
      match s_err s with
      | Some _ => Some (None, mkScanner (s_old s) (s_buf s) 0 0 (s_err s), r)
      | None => match grow (shift s) with
                | None => Some (None, setErr (shift s) TooLong, r)
                | Some s => let '(s, r) := read_loop maxConsecutiveEmptyReads s r in Scan fuel' s r
                end
      end in
    if (s_start s <? s_end s) || match s_err s with Some _ => true | None => false end then
      match doSplit (data_of s) (match s_err s with Some _ => true | None => false end) with
      | Ret (advance, Some l) => Some (Some (mkView (length (s_old s)) (s_start s) l), mkScanner (s_old s) (s_buf s) (s_start s + advance) (s_end s) (s_err s), r)
      | Ret (advance, None) => read_more (mkScanner (s_old s) (s_buf s) (s_start s + advance) (s_end s) (s_err s))
      | Fail e => Some (None, setErr s e, r)
      | Panic => None
      end
    else read_more s
  end.

(** ** Reading frames *)

(** decoder.go:28-42 Read.  Scanner.Err is nil for io.EOF. *)
Definition decoder_read (fuel : nat) (s : scanner) (r : reader) : option (outcome tcp_error view * scanner * reader) :=
  match Scan fuel s r with
  | None => None
  | Some (None, s', r') =>
      Some (Fail (match s_err s' with None | Some EOF | Some (ConnErr true) => EOF | Some e => e end), s', r')
  | Some (Some t, s', r') =>
      let raw := mkView (v_buf t) (v_off t + lengthFieldSize) (v_len t - lengthFieldSize) in
      Some (if v_len raw <? FrameHeaderLen then Fail IncompleteHeader else Ret raw, s', r')
  end.

(** A frame as TCPConn.Read returns it: what it held then, and where its metadata and data lie - at the end of the bytes it was decoded from
    (frames/payload.go, request_payload.go: sub-slices; error.go copies).  Frames of other types have no such slices. *)
Record live := mkLive { lf_frame : frame; lf_metadata : view; lf_data : view }.
Definition frame_data (f : frame) : bytes := match f with FPayload p => pf_data p | FRequest r => rf_data r | _ => [] end.
Definition frame_md (f : frame) : bytes := match f with FPayload p => pf_metadata p | FRequest r => rf_metadata r | _ => [] end.
Definition to_live (raw : view) (f : frame) : live :=
  let fin := v_off raw + v_len raw in
  mkLive f (mkView (v_buf raw) (fin - len (frame_data f) - len (frame_md f)) (len (frame_md f)))
           (mkView (v_buf raw) (fin - len (frame_data f)) (len (frame_data f))).

(** The frame as it looks later, with the memory as it is then. *)
Definition observe (mem : list bytes) (l : live) : frame :=
  match lf_frame l with
  | FPayload p => FPayload {| pf_stream_id := pf_stream_id p; pf_metadata := view_bytes mem (lf_metadata l); pf_data := view_bytes mem (lf_data l);
                              pf_follows := pf_follows p; pf_complete := pf_complete p; pf_next := pf_next p |}
  | FRequest r => FRequest {| rf_type := rf_type r; rf_stream_id := rf_stream_id r; rf_metadata := view_bytes mem (lf_metadata l);
                              rf_data := view_bytes mem (lf_data l); rf_follows := rf_follows r; rf_complete := rf_complete r;
                              rf_initial_n := rf_initial_n r |}
  | f => f
  end.

(** tcp_conn.go:39-95 Read. *)
Definition tcp_read (fuel : nat) (s : scanner) (r : reader) : option (outcome tcp_error live * scanner * reader) :=
  match decoder_read fuel s r with
  | None => None
  | Some (Ret raw, s', r') =>
      Some (match frame_parse (view_bytes (memory s') raw) with
            | Ret (Some f) => Ret (to_live raw f)
            | Ret None => Fail UnknownFrame
            | Fail e => match e with end
            | Panic => Panic
            end, s', r')
  | Some (Fail e, s', r') => Some (Fail e, s', r')
  | Some (Panic, s', r') => Some (Panic, s', r')
  end.

(** transport.go:195-214: the loop of Start, without context and dispatching errors: the frames put in the queue, as they are when put, and
    how it ends (returning nil or an error, or panicking). *)
Inductive ending := Returns (e : option tcp_error) | Panics.
Fixpoint start_loop (fuel : nat) (s : scanner) (r : reader) : option (list frame * ending) :=
  match fuel with
  | O => None
  | S fuel' =>
    match tcp_read fuel s r with
    | None => None
    | Some (Ret l, s', r') => match start_loop fuel' s' r' with
                              | None => None
                              | Some (fs, e) => Some (observe (memory s') l :: fs, e)
                              end
    | Some (Fail EOF, _, _) => Some ([], Returns None)
    | Some (Fail e, _, _) => Some ([], Returns (Some e))
    | Some (Panic, _, _) => Some ([], Panics)
    end
  end.

(** ** Reader and dispatcher *)

(** transport.go:158-214: Start reads and queues frames (an Unbounded queue, see UnboundedModel.v), loopReadBuffer takes them off and handles
    them.  t_seen: the frames handled, each as it was when read and as it is when handled. *)
Record tcp_state := mkTcp { t_scan : scanner; t_conn : reader; t_queue : list live; t_seen : list (frame * frame) }.
Definition tcp_init (r : reader) : tcp_state := mkTcp new_scanner r [] [].
Inductive tcp_step : tcp_state -> tcp_state -> Prop :=
| Step_read : forall s r q seen fuel l s' r', tcp_read fuel s r = Some (Ret l, s', r') -> tcp_step (mkTcp s r q seen) (mkTcp s' r' (q ++ [l]) seen)
| Step_handle : forall s r l q seen, tcp_step (mkTcp s r (l :: q) seen) (mkTcp s r q (seen ++ [(lf_frame l, observe (memory s) l)])).
Inductive tcp_steps : tcp_state -> tcp_state -> Prop :=
| Steps_none : forall t, tcp_steps t t
| Steps_more : forall t t1 t2, tcp_steps t t1 -> tcp_step t1 t2 -> tcp_steps t t2.

(** ** Writing frames *)

(** A connection, as a writer: the pieces written, and how many more bytes it takes before it fails ([None]: it never does). *)
Record sink := mkSink { k_written : list bytes; k_budget : option N }.
Definition sink_write (k : sink) (p : bytes) : N * bool * sink :=
  match k_budget k with
  | None => (len p, true, mkSink (k_written k ++ [p]) None)
  | Some b => if len p <=? b then (len p, true, mkSink (k_written k ++ [p]) (Some (b - len p)))
              else (b, false, mkSink (k_written k ++ [firstn (N.to_nat b) p]) (Some 0))
  end.

(** bufio.Writer: the bytes buffered, its size, whether it has failed.  tcp_conn.go:134 gives it 8192 bytes. *)
Record writer := mkWriter { w_buf : bytes; w_size : N; w_ok : bool; w_sink : sink }.
Definition new_writer (k : sink) : writer := mkWriter [] 8192 true k.

(** bufio/bufio.go Writer.Flush; returns whether the error is nil. *)
Definition w_flush (w : writer) : bool * writer :=
  if w_ok w then
    if len (w_buf w) =? 0 then (true, w)
    else match sink_write (w_sink w) (w_buf w) with
         | (_, true, k) => (true, mkWriter [] (w_size w) true k)
         | (n, false, k) => (false, mkWriter (skipn (N.to_nat n) (w_buf w)) (w_size w) false k)
         end
  else (false, w).

(** bufio/bufio.go Writer.Write; [fuel] rounds of its loop (no more than two are needed). *)
Fixpoint w_write (fuel : nat) (w : writer) (p : bytes) : option (bool * writer) :=
  match fuel with
  | O => None
  | S fuel' =>
    if (w_size w - len (w_buf w) <? len p) && w_ok w then
      if len (w_buf w) =? 0 then
        let '(n, ok, k) := sink_write (w_sink w) p in
        w_write fuel' (mkWriter (w_buf w) (w_size w) ok k) (skipn (N.to_nat n) p)
      else
        let n := N.to_nat (w_size w - len (w_buf w)) in
        let '(_, w') := w_flush (mkWriter (w_buf w ++ firstn n p) (w_size w) (w_ok w) (w_sink w)) in
        w_write fuel' w' (skipn n p)
    else if w_ok w then Some (true, mkWriter (w_buf w ++ p) (w_size w) true (w_sink w))
    else Some (false, w)
  end.

(** tcp_conn.go:98-120 Write, as the two writes it makes; [false]: an error is returned. *)
Definition write_length (w : writer) (f : frame) : outcome no_error (option (bool * writer)) :=
  match MustNewUint24 (frame_size f) with
  | Ret l3 => Ret (w_write 4 w l3)
  | _ => Panic
  end.
Definition write_body (w : writer) (f : frame) : outcome no_error (option (bool * writer)) :=
  do buf <- frame_encode f (repeat 0 (N.to_nat (frame_size f))) ;
  Ret (w_write 4 w buf).
Definition tcp_write (w : writer) (f : frame) : outcome no_error (option (bool * writer)) :=
  do a <- write_length w f ;
  match a with
  | Some (true, w') => write_body w' f
  | _ => Ret a
  end.
(** transport.go:93-114 Send with flush. *)
Definition tcp_send (w : writer) (f : frame) : outcome no_error (option (bool * writer)) :=
  do a <- tcp_write w f ;
  match a with
  | Some (true, w') => Ret (Some (w_flush w'))
  | _ => Ret a
  end.
(** Sends one after the other; the results. *)
Fixpoint tcp_sends (w : writer) (fs : list frame) : outcome no_error (option (list bool * writer)) :=
  match fs with
  | [] => Ret (Some ([], w))
  | f :: fs' =>
      do a <- tcp_send w f ;
      match a with
      | None => Ret None
      | Some (ok, w') => do b <- tcp_sends w' fs' ; Ret (match b with None => None | Some (oks, w2) => Some (ok :: oks, w2) end)
      end
  end.

(** Sends of several goroutines.  Nothing orders them (no lock is taken), the steps of a call are those made on the writer, and each is taken as
    atomic although the writer is not made for concurrent use either. *)
Inductive send_op := OpLength | OpBody | OpFlush.
Definition send_ops : list send_op := [OpLength; OpBody; OpFlush].
Definition do_op (w : writer) (f : frame) (o : send_op) : outcome no_error (option (bool * writer)) :=
  match o with
  | OpLength => write_length w f
  | OpBody => write_body w f
  | OpFlush => Ret (Some (w_flush w))
  end.
Record sender := mkSender { sn_frame : frame; sn_todo : list send_op }.
Definition new_sender (f : frame) : sender := mkSender f send_ops.
(** A sender takes its next step; after an error it takes no more. *)
Inductive send_step : writer * list sender -> writer * list sender -> Prop :=
| Send_step : forall w a f o os b ok w', do_op w f o = Ret (Some (ok, w')) ->
    send_step (w, a ++ mkSender f (o :: os) :: b) (w', a ++ mkSender f (if ok then os else []) :: b).
Inductive send_steps : writer * list sender -> writer * list sender -> Prop :=
| Sends_none : forall t, send_steps t t
| Sends_more : forall t t1 t2, send_steps t t1 -> send_step t1 t2 -> send_steps t t2.
