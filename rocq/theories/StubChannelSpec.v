(** What the generated client and wrapper of a channel operation owe their users. *)
From Coq Require Import List NArith ZArith Bool.
From Verif Require Import Base OutcomeModel FramesModel InvokeModel MonoModel FluxModel FluxSpec ProxyModel ProxySpec DispatchModel DispatchSpec ResponderModel ResponderSpec StreamModel StreamSpec ChannelModel ChannelSpec.
From Verif Require Import MsgpackModel MsgpackSpec MsgpackClient TransformModel TransformSpec StubStreamModel StubStreamSpec StubChannelModel.
Import ListNotations.
Open Scope N_scope.

Section Spec.
Context {H : Type}.
Context (wp wr : site) (tp tr : ikind -> list (option H)) (sp sr : bool) (g gin : fcfg) (sid op : N).

(** Executions of a channel in which the caller's input has items of kind [ki] and is mapped by the client, and the handler is the wrapper of a service with
    items of kind [ko]. *)
Definition typed_move (ki ko : kind) (m : cmove) : Prop :=
  match m with XPCall _ (QI (RO (FDo f))) => exists f', wired ki f' f | XRCall _ (RO (FDo f)) => exists f', wired ko f' f | _ => True end.
Inductive stub_creach (ki ko : kind) : cconf H -> Prop :=
| sc_init : forall n m, stub_creach ki ko (channel_create n m)
| sc_move : forall c m c', stub_creach ki ko c -> callowed sid c m -> typed_move ki ko m -> stub_channel wp wr tp tr sp sr g gin sid op c m = Some c' -> stub_creach ki ko c'.

(** What the callbacks of the user have seen, and those of the service on its input. *)
Context (f64to32 : N -> N) (pt : bytes -> option gtime) (text : rerr -> bytes).
Definition user_hears (k : kind) (c : cconf H) : list (fevent scal bytes) := delivered (flat_map (fmap_event (decode_item f64to32 pt text k) g) (caller c)).
Definition service_hears (k : kind) (c : cconf H) : list (fevent scal bytes) := delivered (flat_map (fmap_event (decode_item f64to32 pt text k) gin) (reader c)).
End Spec.
