(** Model of go/rx/flow/flow.go: steps that run one after the other, each waiting for what the step before it returned.
    Code only; no proofs.

    The steps, the awaitables and whoever else runs are user code, so this is again a small-step machine.  What a step
    returns is chosen by the environment: an error or a group of [k] awaitables.  An awaitable calls its callback once:
    at once if it is complete when Notify is called, otherwise whenever user code runs (go/rx/await, C26, C29).
    Left out: the sinks (flow.go:36-71; see [FlowSinkModel]; here [WErr] stands for the error handed to one, and what its
    callbacks do is user code) and a second subscription. *)
From Coq Require Import List Arith Bool.
Import ListNotations.

Section Flow.
(** The number of steps (flow.go:31-34). *)
Context (N : nat).

Inductive wevent :=
| WRun (i : nat)          (* step i is called *)
| WOpen (r k : nat)       (* the r-th call of a step returned k awaitables *)
| WClosed (r : nat)       (* all of them have been told to call back, and flow.go:114 is done *)
| WDone (r : nat)         (* one of them calls back *)
| WErr (r : nat)          (* the r-th call returned an error *)
| WStop (r : nat)         (* it returned, and the flow was ended *)
| WEnd.                   (* End is called *)

Inductive witem :=
| WUser                   (* user code *)
| WNext                   (* flow.go:87-93 *)
| WStep (r : nat)         (* flow.go:93-106, when the step returns *)
| WLoop (r j : nat)       (* flow.go:107-114 with j awaitables to go *)
| WReg (r : nat)          (* flow.go:109 *)
| WCheck.                 (* flow.go:117-122 *)

(** flow.go:12-21: how many steps were cut off, completed, len(awaitables), ended; the awaitables that are still going to
    call back, by the call of a step that returned them; the number of such calls. *)
Record wst := mkW { w_pos : nat; w_completed : nat; w_len : nat; w_ended : bool; w_pend : list nat; w_runs : nat }.

(** One work item; [None] for WLoop: the panic of f.steps[1:] on an empty slice. *)
Inductive wstep : wst -> witem -> wst -> list witem -> list wevent -> Prop :=
(* flow.go:88-90 *)
| w_next_end : forall p c l e q n, N <= p -> wstep (mkW p c l e q n) WNext (mkW p c l e q n) [] []
(* flow.go:92-94 *)
| w_next : forall p c l e q n, p < N -> wstep (mkW p c l e q n) WNext (mkW p 0 l e q (S n)) [WUser; WStep n] [WRun p]
(* flow.go:95-102: the sink runs the callbacks of the subscriber *)
| w_step_err : forall s r, wstep s (WStep r) s [WUser] [WErr r]
(* flow.go:104-106 *)
| w_step_end : forall p c l q n r, wstep (mkW p c l true q n) (WStep r) (mkW p c l true q n) [] [WStop r]
(* flow.go:107 *)
| w_step : forall p c l q n r k, wstep (mkW p c l false q n) (WStep r) (mkW p c k false q n) [WLoop r k] [WOpen r k]
(* flow.go:108-110 *)
| w_loop : forall s r j, wstep s (WLoop r (S j)) s [WUser; WReg r; WLoop r j] []
(* flow.go:114 *)
| w_pop : forall p c l e q n r, p < N -> wstep (mkW p c l e q n) (WLoop r 0) (mkW (S p) c l e q n) [] [WClosed r]
| w_reg_done : forall s r, wstep s (WReg r) s [WCheck] [WDone r]
| w_reg : forall p c l e q n r, wstep (mkW p c l e q n) (WReg r) (mkW p c l e (r :: q) n) [] []
(* flow.go:118-121 *)
| w_check : forall p c l e q n, wstep (mkW p c l e q n) WCheck (mkW p (S c) l e q n) (if l <=? S c then [WNext] else []) [].

Inductive wreach : wst -> list witem -> list wevent -> Prop :=
(* flow.go:73-85: the source of the mono or flux *)
| w_init : wreach (mkW 0 0 0 false [] 0) [WNext; WUser] []
| w_end : forall p c l e q n stack tr, wreach (mkW p c l e q n) (WUser :: stack) tr ->
    wreach (mkW p c l true q n) (WUser :: stack) (tr ++ [WEnd])
| w_done : forall p c l e q1 r q2 n stack tr, wreach (mkW p c l e (q1 ++ r :: q2) n) (WUser :: stack) tr ->
    wreach (mkW p c l e (q1 ++ q2) n) (WCheck :: WUser :: stack) (tr ++ [WDone r])
| w_return : forall s stack tr, wreach s (WUser :: stack) tr -> stack <> [] -> wreach s stack tr
| w_item : forall s it stack tr s' its evs, wreach s (it :: stack) tr -> wstep s it s' its evs -> wreach s' (its ++ stack) (tr ++ evs).
End Flow.
