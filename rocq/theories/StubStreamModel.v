(** Model of what is generated for a streaming operation on both sides, after go/transport/wasmrs/example/counter.go:25-41 and 83-100: the client's method,
    which encodes its arguments, calls RequestStream and maps the flux it gets with the Decode of the items' type; and the wrapper registered as the handler,
    which decodes the arguments, calls the service, and maps its flux with Encode.  Records, scalars and transforms are those of [TransformModel], the call
    between them is [StreamModel], Map is that of [FluxModel].  Code only; no proofs.

    Mapping a flux passes on Subscription, Notify and the callbacks that are not OnNext (flux.go:232-268), so the calls of the user on the flux of the client,
    and those of the service on its sink, are calls on the two ends of [StreamModel]; only items differ. *)
From Coq Require Import List NArith Bool.
From Verif Require Import Base MonoModel FluxModel FramesModel ProxyModel MsgpackModel MsgpackClient TransformModel OutcomeModel InvokeModel StubModel.
Import ListNotations.
Open Scope N_scope.

Section StubStream.
Context (f64to32 : N -> N) (pt : bytes -> option gtime).
(** err.Error() *)
Context (text : rerr -> bytes).

(** counter.go:40, transform.go: Decode of an item; it does not panic (C20, C25). *)
Definition decode_item (k : kind) (p : pay) : scal + bytes :=
  match transform_decode f64to32 pt k (fst p) with Ret s => inl s | Fail x => inr (text x) | Panic => inr [] end.
(** flux.go:232-256: the callbacks the client's Map subscribes with, for a user with the callbacks [g]. *)
Definition client_cfg (g : fcfg) : fcfg := mkF true (k_complete g) (k_error g) (k_request g) (k_finally g) (k_norequest g).

(** counter.go:98, transform.go: what an item of the service is mapped to, if Encode returns no error (else Map calls OnError and goes on; not modelled). *)
Definition encode_item (s : scal) : option pay := match transform_encode s with Ret d => Some (d, []) | _ => None end.

(** counter.go:87-97: the arguments the service is called with, or the text of the error of flux.Error; [fuel] for Skip suffices (C20). *)
Definition stream_wrapper (sc : schema) (z : env) (data : bytes) : list fval + bytes :=
  match codec_decode f64to32 pt sc (S (length data)) z data with
  | Ret e => inl (map (fun f => e (fst f)) sc)
  | Fail x => inr (text x)
  | Panic => inr []
  end.
(** handler/handler.go:310-336 (alike host/instance.go:512-541, guest/guest.go): the frames sent before the service is called, and how it goes on.
    flux.go:45-67: Subscribe of a flux.Error calls OnError; its Subscription is nil, on which Request is then called, in a goroutine nobody recovers. *)
Definition stream_start (sid : N) (sc : schema) (z : env) (data : bytes) : list frame * outcome unit (list fval) :=
  match stream_wrapper sc z data with
  | inl args => ([], Ret args)
  | inr e => ([FramesModel.FError sid 0 e], Panic)
  end.
End StubStream.
