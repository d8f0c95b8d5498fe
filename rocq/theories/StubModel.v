(** Model of what is generated for an operation on both sides of a call, after go/example/greeter/greeter.go:65-108 (the same scheme:
    go/transport/wasmrs/example/counter.go, greeting.go; mesh/modules/customer): the client's method, which encodes its arguments, calls, and decodes
    the result; and the wrapper registered as the handler, which decodes the arguments, calls the service, and encodes its result.  The record codecs
    and transforms are those of [TransformModel], monos those of [OutcomeModel].  Code only; no proofs. *)
From Coq Require Import List NArith Bool.
From Verif Require Import Base MsgpackModel MsgpackClient TransformModel OutcomeModel InvokeModel ProxyModel.
Import ListNotations.
Open Scope N_scope.

(** The values of the monos involved: payloads, and results of the service's type. *)
Inductive value := VPayload (p : pay) | VResult (s : scal).
Definition stub_mono := mono_expr value bytes.
Definition zero_value : value := VPayload ([], []).

(** A service method: the fields of its request record, the zero record, and its body, which may do different things on different streams.
    Errors are their texts. *)
Record service := mkService { sv_schema : schema; sv_zero : env; sv_body : N -> list fval -> stub_mono }.

Section Stub.
Context (f64to32 : N -> N) (pt : bytes -> option gtime).
(** err.Error() *)
Context (text : rerr -> bytes).

(** The 'transform' of the result, transform.go:17-255, in the form mono.Map takes.  The other alternatives for [v] are ruled out by Go's types;
    Encode and Decode do not panic (C20, C25). *)
Definition encode_value (v : value) : value + bytes :=
  match v with
  | VResult s => match transform_encode s with Ret data => inl (VPayload (data, [])) | Fail x => inr (text x) | Panic => inr [] end
  | VPayload _ => inr []
  end.
Definition decode_value (k : kind) (v : value) : value + bytes :=
  match v with
  | VPayload (data, _) => match transform_decode f64to32 pt k data with Ret s => inl (VResult s) | Fail x => inr (text x) | Panic => inr [] end
  | VResult _ => inr []
  end.

(** greeter.go:101-106: the metadata, with the number the import returned, and the payload. *)
Definition stub_metadata (op : N) : bytes := be 4 op ++ [0; 0; 0; 0].
Definition stub_call (sc : schema) (op : N) (e : env) : outcome rerr pay :=
  do data <- codec_encode sc e ; Ret (data, stub_metadata op).
(** greeter.go:107: the mono returned to the user, when the calls on its subscription by the mono of RequestResponse are [replies]. *)
Definition reply_call (o : pay + bytes) : sink_call value bytes := match o with inl p => KSuccess (VPayload p) | inr e => KError e end.
Definition stub_reply (k : kind) (replies : list (pay + bytes)) : stub_mono := Map (Created None (map reply_call replies)) (decode_value k).

(** greeter.go:69-81, for the run on the stream [sid]; [fuel] for Skip suffices (C20). *)
Definition wrapper (v : service) (sid : N) (data : bytes) : stub_mono :=
  match codec_decode f64to32 pt (sv_schema v) (S (length data)) (sv_zero v) data with
  | Ret e => Map (sv_body v sid (map (fun f => e (fst f)) (sv_schema v))) encode_value
  | Fail x => MError (text x)
  | Panic => MError []
  end.

(** handler/handler.go:250-271: the callbacks that send the answer. *)
Definition answers : subscribe_cfg value bytes (pay + bytes) :=
  mkSubscribe _ (Some (fun v => match v with VPayload p => [inl p] | VResult _ => [] end)) (Some (fun e => [inr e])) None.
Definition wrapper_answers (v : service) (sid : N) (data : bytes) : list (pay + bytes) := subscribe zero_value (wrapper v sid data) answers.
End Stub.
