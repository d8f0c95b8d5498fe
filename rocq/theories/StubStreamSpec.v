(** What the generated client of a streaming operation owes its user. *)
From Coq Require Import List NArith ZArith Bool.
From Verif Require Import Base OutcomeModel FramesModel InvokeModel MonoModel FluxModel FluxSpec ProxyModel ProxySpec DispatchModel DispatchSpec ResponderModel ResponderSpec StreamModel StreamSpec.
From Verif Require Import MsgpackModel MsgpackSpec MsgpackClient TransformModel TransformSpec StubStreamModel.
Import ListNotations.
Open Scope N_scope.

(** A call the service makes on its sink, and the call it amounts to on the flux the wrapper returned: items are of the type the client expects, shorter
    than 4 GiB, and are sent encoded, without metadata; everything else is passed on. *)
Inductive wired (k : kind) : fcall scal bytes -> fcall pay bytes -> Prop :=
| w_next : forall s p, kind_of s = k -> scal_ok s -> len (mv_bytes (scal_mv s)) + scal_excess s < 2^32 -> encode_item s = Some p -> wired k (FNext s) (FNext p)
| w_subscribe : wired k FSubscribe FSubscribe
| w_notify : wired k FNotify FNotify
| w_complete : wired k FComplete FComplete
| w_error : forall e, wired k (FluxModel.FError e) (FluxModel.FError e)
| w_on_subscribe : forall a b, wired k (FOnSubscribe a b) (FOnSubscribe a b)
| w_request : forall n, wired k (FRequest n) (FRequest n)
| w_cancel : wired k FluxModel.FCancel FluxModel.FCancel
| w_close : wired k FClose FClose.

(** The service is given the caller's arguments by name, and zero values for the fields the caller does not know. *)
Definition given (sc : schema) (e : env) (sc' : schema) (z : env) : list fval :=
  map (fun f => if in_dec (list_eq_dec N.eq_dec) (fst f) (map fst sc) then e (fst f) else z (fst f)) sc'.

Section Spec.
Context {H : Type}.
Context (wp wr : site) (tp tr : ikind -> list (option H)) (sp sr : bool) (g : fcfg) (sid : N) (data md : bytes).

(** Executions of a stream in which the handler is the wrapper of a service with items of kind [k] and the subscriber the Map of the client. *)
Definition served (k : kind) (m : StreamModel.move) : Prop := match m with MRCall _ c => exists c', wired k c' c | _ => True end.
Inductive stub_sreach (k : kind) : conf H -> Prop :=
| ss_init : forall n m, stub_sreach k (stream_create n m)
| ss_move : forall c m c', stub_sreach k c -> allowed sid c m -> served k m -> StreamModel.do_move wp wr tp tr sp sr (client_cfg g) sid data md c m = Some c' -> stub_sreach k c'.

(** What the user's callbacks have seen. *)
Context (f64to32 : N -> N) (pt : bytes -> option gtime) (text : rerr -> bytes).
Definition user_seen (k : kind) (c : conf H) : list (fevent scal bytes) := delivered (flat_map (fmap_event (decode_item f64to32 pt text k) g) (subscriber c)).
End Spec.
