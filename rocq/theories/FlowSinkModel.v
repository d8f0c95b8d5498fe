(** Model of go/rx/flow/flow.go together with the sink its steps report to: Next, Complete, Success, Error (lines 36-71),
    Mono and Flux (lines 73-85), over the subscribers of go/rx/mono/mono.go and go/rx/flux/flux.go.  Code only; no proofs.

    The machine of [FlowModel] with more work items.  The subscriber's callbacks are user code, which may call anything on
    the flow, complete awaitables and so on.  All callbacks are given: one that is nil is one that does nothing.
    Left out: a second subscription, calls before the first, and what is requested of a flux (its flow does not ask). *)
From Coq Require Import List Arith Bool.
From Verif Require Import FlowModel.
Import ListNotations.

Section FlowSink.
Context {T E : Type}.
Context (N : nat).
(** Which of monoSink and fluxSink is set (flow.go:75, 82). *)
Context (mono : bool).

(** The methods of the flow, and Cancel of the subscriber. *)
Inductive xcall := XSuccess (v : T) | XNext (v : T) | XComplete | XError (e : E) | XCancel.
(** The callbacks of the subscriber. *)
Inductive xseen := OSuccess (v : T) | ONext (v : T) | OComplete | OError (e : E) | OFinally.

Inductive xevent :=
| XF (w : wevent)                 (* as in [FlowModel], but for errors *)
| XReturned (r : nat) (e : E)     (* the r-th call of a step returned an error *)
| XCalled (c : xcall)
| XPanic (c : xcall)              (* the call panics *)
| XSee (o : xseen).

Inductive xitem :=
| XI (it : witem)
| XCall (c : xcall)
| XEmit (o : xseen)
| XCb                             (* user code run by the subscriber *)
| XBack.                          (* after the call of flow.go:97 or 99 *)

(** What a call does, given [closed]: the new [closed] and the callbacks run; [None] for a panic.
    Mono: flow.go:53-60 and mono.go:157-166; flow.go:62-65 and mono.go:168-177; mono.go:191-197; flow.go:36-51.
    Flux: flow.go:36-41 and flux.go:127-139; flow.go:43-48 and flux.go:141-150; flow.go:65-67 and flux.go:152-162;
    flux.go:202-210; flow.go:54-56.  [OFinally] stands for doFinally and the callbacks given to Notify. *)
Definition effect (closed : bool) (c : xcall) : option (bool * list xseen) :=
  let unless_closed r := if closed then Some (closed, []) else Some r in
  if mono then
    match c with
    | XSuccess v => unless_closed (true, [OSuccess v; OFinally])
    | XError e => unless_closed (true, [OError e; OFinally])
    | XCancel => unless_closed (true, [OFinally])
    | XNext _ | XComplete => None
    end
  else
    match c with
    | XNext v => unless_closed (false, [ONext v])
    | XComplete => unless_closed (true, [OComplete; OFinally])
    | XError e => unless_closed (true, [OError e; OFinally])
    | XCancel => Some (true, [OFinally])
    | XSuccess _ => None
    end.

(** User code is on top of the stack. *)
Definition is_user (it : xitem) : bool := match it with XI WUser | XCb => true | _ => false end.

Inductive xreach : wst -> bool -> list xitem -> list xevent -> Prop :=
(* flow.go:73-85 *)
| x_init : xreach (mkW 0 0 0 false [] 0) false [XI WNext; XI WUser] []
(* user code: a call of a method, of End (flow.go:26-29), an awaitable that completes *)
| x_call : forall s cl u stack tr c, is_user u = true -> xreach s cl (u :: stack) tr -> xreach s cl (XCall c :: u :: stack) tr
| x_end : forall p c l e q n cl u stack tr, is_user u = true -> xreach (mkW p c l e q n) cl (u :: stack) tr ->
    xreach (mkW p c l true q n) cl (u :: stack) (tr ++ [XF WEnd])
| x_done : forall p c l e q1 r q2 n cl u stack tr, is_user u = true -> xreach (mkW p c l e (q1 ++ r :: q2) n) cl (u :: stack) tr ->
    xreach (mkW p c l e (q1 ++ q2) n) cl (XI WCheck :: u :: stack) (tr ++ [XF (WDone r)])
| x_return : forall s cl u stack tr, is_user u = true -> stack <> [] -> xreach s cl (u :: stack) tr -> xreach s cl stack tr
(* a step returns an error, flow.go:95-101 *)
| x_error : forall s cl r stack tr e cl' os, xreach s cl (XI (WStep r) :: stack) tr -> effect cl (XError e) = Some (cl', os) ->
    xreach s cl' (map XEmit os ++ XBack :: stack) (tr ++ [XReturned r e])
| x_back : forall s cl stack tr, xreach s cl (XBack :: stack) tr -> xreach s cl stack tr
(* anything else in flow.go *)
| x_item : forall s cl it stack tr s' its evs, xreach s cl (XI it :: stack) tr -> wstep N s it s' its evs ->
    (forall r, ~ In (WErr r) evs) -> xreach s' cl (map XI its ++ stack) (tr ++ map XF evs)
| x_effect : forall s cl c stack tr cl' os, xreach s cl (XCall c :: stack) tr -> effect cl c = Some (cl', os) ->
    xreach s cl' (map XEmit os ++ stack) (tr ++ [XCalled c])
| x_panic : forall s cl c stack tr, xreach s cl (XCall c :: stack) tr -> effect cl c = None -> xreach s cl stack (tr ++ [XPanic c])
| x_emit : forall s cl o stack tr, xreach s cl (XEmit o :: stack) tr -> xreach s cl (XCb :: stack) (tr ++ [XSee o]).
End FlowSink.
