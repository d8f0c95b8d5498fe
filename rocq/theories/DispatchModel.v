(** Model of how a received frame is dispatched: go/handler/handler.go (HandleFrame and what it starts),
    go/transport/wasmrs/host/instance.go recvOne (254-425), go/transport/wasmrs/guest/guest.go GuestSend, the body of its loop
    (119-294), and the functions these call.  Code only; no proofs.

    A dispatcher is a function from the received frame to the list of things it does, in order.  Simplifications: where handler.go and
    instance.go start a goroutine its actions are listed as if done at once; running a handler - and subscribing to what it returns - is one
    action, whose own doings are not modelled here; contexts are the stream they come from; prints are left out. *)
From Coq Require Import List NArith Bool.
From Verif Require Import Base FramesModel OperationsModel InvokeModel.
Import ListNotations.
Open Scope N_scope.

(** Which of the three dispatchers: handler/handler.go, host/instance.go, guest/guest.go. *)
Inductive site := Peer | Host | Guest.

(** The types of proxy.Stream (proxy/stream.go) as far as calling their methods goes.  SMono: streamMono.  SFlux: streamFlux; [true] if [in]
    is there and has a subscription, which DoRequest calls.  SResp: requestStream; whether [sub] and [sink] are set. *)
Inductive skind := SMono | SFlux (in_ready : bool) | SResp (sub sink : bool).

(** Methods of a stream; data, metadata, message and number are those of the frame. *)
Inductive scall := OnNext (data md : bytes) | OnComplete | OnError (msg : bytes) | DoRequest (n : N).

(** handler.go:116. *)
Inductive derr := NotFound (sid : N).

(** handler.go:235-238, instance.go 436-439, guest.go 304-307 and alike; handler.go:649-659 and alike. *)
Definition not_found : bytes := [110; 111; 116; 95; 102; 111; 117; 110; 100].                                      (* "not_found" *)
Definition invalid_metadata : bytes := [73; 110; 118; 97; 108; 105; 100; 32; 109; 101; 116; 97; 100; 97; 116; 97].   (* "Invalid metadata" *)

Section Dispatch.
Context {H S : Type}.
(** The handlers by kind: the package variables of invoke (handler.go, guest.go) or the linked handlers of the instance (instance.go:613-667). *)
Context (tbl : ikind -> list (option H)).
(** The registered streams, handler.go:95-101 and alike, with their types. *)
Context (get : N -> option S).
Context (kind : S -> skind).

Inductive act :=
| ASend (f : frame)                                                                       (* a frame is sent *)
| AKeep (r : request_frame)                                                               (* fragmentedPayloads[id] = ... *)
| ARegister (sid : N)                                                                     (* a requestStream is registered *)
| ARun (k : ikind) (h : H) (sid : N) (data md : bytes) (parent : option S) (n : N)        (* handler, payload, context, initialN *)
| ACall (s : S) (c : scall)
| ARemove (sid : N).

(** Calling a method: nil pointers, and for DoRequest the type assertion handler.go:161 (streamMono has no such method), panic.
    proxy/flux.go 51-62, 124-127; proxy/mono.go 42-52; handler.go:701-715, guest.go:597-611, instance.go:721-735. *)
Definition has_method (s : skind) (c : scall) : bool :=
  match s, c with
  | SMono, DoRequest _ => false
  | SMono, _ => true
  | SFlux i, DoRequest _ => i
  | SFlux _, _ => true
  | SResp sub _, DoRequest _ => sub
  | SResp _ sink, _ => sink
  end.
Definition call_on (s : S) (c : scall) : outcome derr (list act) :=
  if has_method (kind s) c then Ret [ACall s c] else Panic.

(** handler.go:232-400; instance.go:427-611; guest.go:297-465: the four functions differ in the tables, in what the handler is
    given and in which streams are registered.  [n]: initialN, for RS and RC. *)
Definition registers (w : site) (k : ikind) : bool :=
  match k, w with RR, _ => false | FNF, Host => false | _, _ => true end.
Definition strips (w : site) (k : ikind) : bool :=
  match k, w with _, Host => false | RR, _ => true | FNF, _ => true | _, _ => false end.
Definition handle (w : site) (k : ikind) (sid : N) (data md : bytes) (n : N) : outcome derr (list act) :=
  if len md <? 8 then Ret [ASend (FError sid 0 invalid_metadata)]
  else
    do operationID <- get_be 4 md ;
    do parent <- match w with
                 | Host => do rest <- slice_from md 4 ;
                           do parentStreamID <- get_be 4 rest ;
                           Ret (if parentStreamID =? 0 then None else get parentStreamID)
                 | _ => Ret None
                 end ;
    match get_from (tbl k) operationID with
    | Ret None => Ret [ASend (FError sid 0 not_found)]
    | Ret (Some h) =>
      do md' <- (if strips w k then slice_from md 8 else Ret md) ;
      Ret ((if registers w k then [ARegister sid] else []) ++ [ARun k h sid data md' parent n])
    | _ => Panic
    end.

(** The kind of request of a frame type. *)
Definition kind_of (ty : N) : option ikind :=
  if ty =? FrameTypeRequestResponse then Some RR
  else if ty =? FrameTypeRequestFNF then Some FNF
  else if ty =? FrameTypeRequestStream then Some RS
  else if ty =? FrameTypeRequestChannel then Some RC
  else None.

(** What is done with a frame for a registered stream [s]: handler.go:160-224, instance.go:344-423, guest.go:198-292. *)
Definition for_stream (s : S) (f : frame) : outcome derr (list act) :=
  match f with
  | FRequestN _ n => call_on s (DoRequest n)
  | FCancel sid => do a <- call_on s OnComplete ; Ret (a ++ [ARemove sid])
  | FPayload p =>
    do a <- (if pf_next p then call_on s (OnNext (pf_data p) (pf_metadata p)) else Ret []) ;
    do b <- (if pf_complete p then do b <- call_on s OnComplete ; Ret (b ++ [ARemove (pf_stream_id p)]) else Ret []) ;
    Ret (a ++ b)
  | FError sid _ msg =>
    do a <- call_on s (OnError msg) ;
    do b <- call_on s OnComplete ;
    Ret (a ++ b ++ [ARemove sid])
  | FRequest _ => Ret []
  end.

Definition frame_type (f : frame) : N :=
  match f with
  | FCancel _ => FrameTypeCancel
  | FRequestN _ _ => FrameTypeRequestN
  | FError _ _ _ => FrameTypeError
  | FPayload _ => FrameTypePayload
  | FRequest r => rf_type r
  end.
Definition frame_sid (f : frame) : N :=
  match f with
  | FCancel sid => sid
  | FRequestN sid _ => sid
  | FError sid _ _ => sid
  | FPayload p => pf_stream_id p
  | FRequest r => rf_stream_id r
  end.

(** handler.go:107-230 HandleFrame. *)
Definition HandleFrame (f : frame) : outcome derr (list act) :=
  let request :=
    match f with
    | FRequest r => match kind_of (rf_type r) with
                    | Some k => handle Peer k (rf_stream_id r) (rf_data r) (rf_metadata r) (rf_initial_n r)
                    | None => Ret []
                    end
    | _ => Ret []
    end in
  if FrameTypeRequestN <=? frame_type f then
    match get (frame_sid f) with
    | None => if frame_type f =? FrameTypeRequestN then Ret [] else Fail (NotFound (frame_sid f))
    | Some s => for_stream s f
    end
  else request.

(** Decode returns no error (FramesModel); [None] cannot happen. *)
Definition decoded (m : outcome no_error frame) (k : frame -> outcome derr (list act)) : outcome derr (list act) :=
  match m with Ret f => k f | _ => Panic end.

(** instance.go:254-425 recvOne; guest.go:119-294, the body of the loop after the length. *)
Definition recv_one (w : site) (data : bytes) : outcome derr (list act) :=
  do h <- ParseFrameHeader data ;
  do data <- slice_from data FrameHeaderLen ;
  let ty := hdr_type h in
  let request k :=
    decoded (request_decode h data) (fun f =>
      match f with
      | FRequest r => if rf_follows r then Ret [AKeep r]
                      else handle w k (rf_stream_id r) (rf_data r) (rf_metadata r) (rf_initial_n r)
      | _ => Panic
      end) in
  if FrameTypeRequestN <=? ty then
    match get (hdr_stream_id h) with
    | None => Ret []
    | Some s =>
      if ty =? FrameTypeRequestN then decoded (requestn_decode h data) (for_stream s)
      else if ty =? FrameTypeCancel then for_stream s (FCancel (hdr_stream_id h))
      else if ty =? FrameTypePayload then decoded (payload_decode h data) (for_stream s)
      else if ty =? FrameTypeError then decoded (error_decode h data) (for_stream s)
      else Ret []
    end
  else match kind_of ty with
       | Some k => request k
       | None => Ret []
       end.
End Dispatch.
Arguments act : clear implicits.
