(** What request/response calls between a Go host and a Rust guest owe their callers. *)
From Coq Require Import List NArith Bool.
From Verif Require Import Base FramesModel FramesSpec InvokeModel StreamIdModel MonoModel ProxyModel DispatchModel DispatchSpec CallModel CallSpec CustomSpec RustCallModel.
Import ListNotations.
Open Scope N_scope.

Section Spec.
Context {Hg Hr : Type}.
Context (go_tbl : ikind -> list (option Hg)) (rust_tbl : list Hr).

(** What the Go side may answer: payloads of bytes that a frame can carry, and errors whose text is UTF-8. *)
Definition readable_out (o : pay + bytes) : Prop :=
  match o with inl (data, md) => wf data /\ wf md | inr msg => utf8 msg /\ wf msg end /\ sendable_out o.

(** Executions in which payloads are sendable, the host names an operation in its metadata, a mono is subscribed at most once, a guest waits for its
    calls, and neither side makes so many calls that ids are used again (the last id of a guest that fits into a frame is 2^31 - 2). *)
Definition x_allowed (st : mix Hg Hr) (m : xmove) : Prop :=
  match m with
  | GCall data md => sendable data md /\ wf data /\ 4 <= len md /\ len (p_calls (x_go st)) < 2^30
  | GSubscribe k => forall c, nth_error (p_calls (x_go st)) k = Some c -> c_subscribed c = false
  | GConclude _ o => readable_out o
  | RCall data md => sendable data md /\ len (rs_calls (x_rust st)) < 2^30 - 1
  | RConclude _ o => sendable_out o
  | RDrop _ => False
  | _ => True
  end.
(** A move that can be made: there is a frame to take, a task or an open run of that number. *)
Definition x_enabled (st : mix Hg Hr) (mv : xmove) : Prop :=
  match mv with
  | GCall _ _ | RCall _ _ => True
  | GSubscribe k => nth_error (p_calls (x_go st)) k <> None
  | GReceive => to_go st <> []
  | RReceive => to_rust st <> []
  | GTask i => nth_error (p_tasks (x_go st)) i <> None
  | RTask i => nth_error (rs_tasks (x_rust st)) i <> None
  | GConclude i _ => exists r, nth_error (p_runs (x_go st)) i = Some r /\ r_out r = None
  | RConclude i _ => exists r, nth_error (rs_runs (x_rust st)) i = Some r /\ r_out r = None
  | RDrop k => nth_error (rs_calls (x_rust st)) k <> None
  end.
Inductive x_reach : mix Hg Hr -> Prop :=
| x_init : x_reach mix_create
| x_step : forall st m st', x_reach st -> x_allowed st m -> x_move go_tbl rust_tbl st m = Some st' -> x_reach st'.

(** The guest's run for a call of the host: same stream, the handler at the index in front of the metadata, data and metadata as sent. *)
Definition guest_run_for (c : call) (r : run Hr) : Prop :=
  r_sid r = c_sid c /\ nth_error rust_tbl (N.to_nat (number4 (c_md c))) = Some (r_handler r) /\ r_data r = c_data c /\ r_md r = c_md c.
Definition host_call_outcome (st : mix Hg Hr) (c : call) (o : pay + bytes) : Prop :=
  (exists r, In r (rs_runs (x_rust st)) /\ guest_run_for c r /\ r_out r = Some o)
  \/ (nth_error rust_tbl (N.to_nat (number4 (c_md c))) = None /\ o = inr no_handler).

(** The host's run for a call of the guest. *)
Definition host_run_for (c : rcall) (r : run Hg) : Prop :=
  r_sid r = rc_sid c /\ names go_tbl RR (rc_md c) (r_handler r) /\ r_data r = rc_data c /\ r_md r = rc_md c.
(** What the guest is told of an outcome: the code of errors is 0, and an empty text is replaced. *)
Definition told (o : pay + bytes) : pay + N * bytes :=
  match o with inl v => inl v | inr [] => inr (0, no_data) | inr msg => inr (0, msg) end.
Definition guest_call_outcome (st : mix Hg Hr) (c : rcall) (x : pay + N * bytes) : Prop :=
  exists o, x = told o /\
  ((exists r, In r (p_runs (x_go st)) /\ host_run_for c r /\ r_out r = Some o)
   \/ ((forall h, ~ names go_tbl RR (rc_md c) h) /\ o = inr (if len (rc_md c) <? 8 then invalid_metadata else not_found))).

(** Nothing is under way. *)
Definition x_rest (st : mix Hg Hr) : Prop :=
  to_go st = [] /\ to_rust st = [] /\ p_tasks (x_go st) = [] /\ rs_tasks (x_rust st) = []
  /\ Forall (fun r => r_out r <> None) (p_runs (x_go st)) /\ Forall (fun r => r_out r <> None) (rs_runs (x_rust st)).

(** The moves other than those of the callers, and how many of them are left. *)
Definition x_inner (m : xmove) : bool := match m with GCall _ _ | GSubscribe _ | RCall _ _ | RDrop _ => false | _ => true end.
Definition x_work (st : mix Hg Hr) : nat :=
  list_sum (map weight (to_go st)) + list_sum (map weight (to_rust st)) + 3 * length (p_tasks (x_go st)) + 2 * length (rs_tasks (x_rust st))
  + 2 * pending (p_runs (x_go st)) + 2 * pending (rs_runs (x_rust st)).
End Spec.
