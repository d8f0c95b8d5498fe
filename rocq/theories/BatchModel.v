(** Model of how frames cross between host and guest: the host's send loop, the guest's receiving loop, and the other way
    round.  Code only; no proofs.

    Modelled: go/transport/wasmrs/host/instance.go sendLoop (159-212) and hostSend (230-244), go/transport/wasmrs/guest/guest.go
    GuestSend up to the decoding of each frame (106-295) and doSendFrame (562-569).  Not modelled: what is done with a decoded
    frame; guests look up the stream of a RequestN, Cancel, Payload or Error frame before they decode it and skip it if there is none,
    here it is decoded in any case.  WebAssembly memory is bytes: the buffers are shared, so a call of the guest is given the buffer
    as it is at that moment.  mem.Read is taken to succeed where the guest announced its buffers. *)
From Coq Require Import List NArith Bool.
From Verif Require Import Base FramesModel.
Import ListNotations.
Open Scope N_scope.

(** guest.go:106-121: [curPos] and [buf] of the loop; each frame is decoded as at 123-290.  [fuel] only makes the recursion
    structural: every round takes at least three bytes off the buffer. *)
Fixpoint guest_loop (fuel : nat) (curPos endPos : N) (buf : bytes) : outcome no_error (list (option frame)) :=
  match fuel with
  | O => Panic
  | S fuel' =>
    if curPos <? endPos then
      do after <- slice_from buf 3 ;
      let frameLen := unbe (0 :: firstn 3 buf) in
      let frameBuf := overlay (repeat 0 (N.to_nat frameLen)) after in
      do buf' <- slice_from buf (3 + frameLen) ;
      do f <- frame_parse frameBuf ;
      do fs <- guest_loop fuel' (u32 (curPos + u32 (3 + frameLen))) endPos buf' ;
      Ret (f :: fs)
    else Ret []
  end.
Definition GuestSend (guestBuffer : bytes) (endPos : N) : outcome no_error (list (option frame)) := guest_loop (S (length guestBuffer)) 0 endPos guestBuffer.

(** instance.go:230-244 hostSend, given the bytes read from the memory: the buffers put on recvCh. *)
Fixpoint host_loop (fuel : nat) (buffer : bytes) : outcome no_error (list bytes) :=
  match fuel with
  | O => Panic
  | S fuel' =>
    if 0 <? len buffer then
      do length3 <- slice_to buffer 3 ;
      do buffer <- slice_from buffer 3 ;
      let frameLength := unbe (0 :: length3) in
      do rest <- slice_from buffer frameLength ;
      do bufs <- host_loop fuel' rest ;
      Ret (buffer :: bufs)
    else Ret []
  end.
Definition hostSend (mem : bytes) : outcome no_error (list bytes) := host_loop (S (length mem)) mem.

(** guest.go:562-569 doSendFrame, up to what the host makes of it: [beyond] is the memory behind hostBuffer. *)
Definition doSendFrame (hostBuffer beyond : bytes) (f : frame) : outcome no_error (bytes * list bytes) :=
  let byteLength := frame_size f in
  do hb <- put_at hostBuffer 0 (skipn 1 (be 4 byteLength)) ;
  do rest <- slice_from hb 3 ;
  do rest' <- frame_encode f rest ;
  let hb' := firstn 3 hb ++ rest' in
  let recvPos := u32 (byteLength + 3) in
  do bufs <- hostSend (if recvPos <=? len (hb' ++ beyond) then firstn (N.to_nat recvPos) (hb' ++ beyond) else []) ;
  Ret (hb', bufs).

(** ** The send loop *)

(** What the loop sees: a frame from the channel, nothing in the channel, the closed channel. *)
Inductive event := Arrive (f : frame) | Idle | Closed.

(** l_buf: the guest's buffer.  l_inner: in the inner loop (194-209), else waiting at 192.  l_calls: the calls of the guest so far, each
    with the buffer and the position given. *)
Record loop_state := mkLoop { l_buf : bytes; l_pos : N; l_inner : bool; l_done : bool; l_calls : list (bytes * N) }.
Definition loop_init (buf : bytes) : loop_state := mkLoop buf 0 false false [].

(** instance.go:166-190: the closure [write]; sendSize is the size of the buffer. *)
Definition flush (s : loop_state) : loop_state := mkLoop (l_buf s) 0 (l_inner s) (l_done s) (l_calls s ++ [(l_buf s, l_pos s)]).
Definition write (s : loop_state) (f : frame) : outcome no_error loop_state :=
  let byteCount := frame_size f in
  let s := if len (l_buf s) <=? u32 (u32 (l_pos s + 3) + byteCount) then flush s else s in
  do b <- copy_at (l_buf s) (l_pos s) (skipn 1 (be 4 byteCount)) ;
  do rest <- slice_from b (l_pos s + 3) ;
  do rest' <- frame_encode f rest ;
  Ret (mkLoop (firstn (N.to_nat (l_pos s + 3)) b ++ rest') (u32 (l_pos s + u32 (3 + byteCount))) (l_inner s) (l_done s) (l_calls s)).

(** instance.go:192-211.  A closed channel ends the outer loop; the inner one receives a nil frame from it, whose Size panics. *)
Definition loop_step (s : loop_state) (e : event) : outcome no_error loop_state :=
  if l_done s then Ret s
  else match e with
       | Arrive f => do s' <- write s f ; Ret (mkLoop (l_buf s') (l_pos s') true false (l_calls s'))
       | Idle => if l_inner s then
                   let s' := if 0 <? l_pos s then flush s else s in
                   Ret (mkLoop (l_buf s') (l_pos s') false false (l_calls s'))
                 else Ret s
       | Closed => if l_inner s then Panic else Ret (mkLoop (l_buf s) (l_pos s) false true (l_calls s))
       end.
Fixpoint sendLoop (s : loop_state) (es : list event) : outcome no_error loop_state :=
  match es with [] => Ret s | e :: es' => do s' <- loop_step s e ; sendLoop s' es' end.
