(** What a streaming call of a Rust guest that a Go peer serves owes its caller. *)
From Coq Require Import List NArith ZArith Bool.
From Verif Require Import Base CustomModel FramesModel FramesSpec InvokeModel MonoModel FluxModel FluxSpec ProxyModel ProxySpec DispatchModel DispatchSpec ResponderModel ResponderSpec StreamModel StreamSpec RustFramesModel RustStreamModel RustAskModel.
From Verif Require RustCallModel.
Import ListNotations.

(** What is to be read for a call on the handler's flux. *)
Definition reads (c : fcall pay bytes) : list reading :=
  match c with
  | FNext v => [GItem v]
  | FComplete => [GEnd]
  | FluxModel.FError e => [GProblem (match e with [] => RustCallModel.no_data | _ => e end); GEnd]
  | _ => []
  end.
Definition to_read (l : list (fcall pay bytes)) : list reading := flat_map reads (upto l).

Section Spec.
Context {H : Type}.
Context (w : site) (tbl : ikind -> list (option H)) (sr : bool) (sid : N) (data md : bytes).
Notation qconf := (qconf H).

(** Executions in which items are sendable and errors are text, no two sink calls overlap, and other traffic belongs to other streams. *)
Definition readable_call (c : fcall pay bytes) : Prop :=
  match c with
  | FNext (d, m) => wf d /\ wf m
  | FluxModel.FError e => wf e /\ utf8_valid e = true
  | _ => True
  end.
Definition q_allowed (c : qconf) (m : qmove) : Prop :=
  match m with
  | QGo m => allowed sid (q_go c) m /\ match m with MRCall _ f => readable_call f | MDown bs => wf bs | _ => True end
  | _ => True
  end.
Inductive q_reach : qconf -> Prop :=
| qr_init : forall m, q_reach (q_create m)
| qr_move : forall c m c', q_reach c -> q_allowed c m -> q_move w tbl sr sid data md c m = Some c' -> q_reach c'.

(** The calls made on the flux the handler returned; the handlers run, with payload and initialN; the RequestN frames that arrived. *)
Definition q_emitted (c : qconf) : list (fcall pay bytes) := out_calls (c_rtr (q_go c)).
Definition q_runs (c : qconf) : list (H * bytes * bytes * N) := c_runs (q_go c).
Definition q_credit (c : qconf) : list N := flat_map (fun e => match e with RNet (RNRequest n) => [n] | _ => [] end) (c_rtr (q_go c)).
(** The frames the guest sent on the stream. *)
Definition q_sent (c : qconf) : list frame := psent (c_ptr (q_go c)).

(** No frame is on its way, the dispatcher has nothing to do, no goroutine waits, no sink call is under way, and the caller has nothing to read. *)
Definition q_rest (c : qconf) : Prop :=
  c_up (q_go c) = [] /\ c_down (q_go c) = [] /\ c_rtodo (q_go c) = [] /\ c_tasks (q_go c) = [] /\ idle (c_rths (q_go c)) = true /\
  q_queue c = [] /\ (q_reg c = false -> ended_reading (q_read c) = true).
End Spec.
