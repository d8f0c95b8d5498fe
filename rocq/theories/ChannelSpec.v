(** What a channel call owes the two sides. *)
From Coq Require Import List NArith ZArith Bool.
From Verif Require Import Base FramesModel FramesSpec InvokeModel MonoModel FluxModel FluxSpec ProxyModel ProxySpec DispatchModel DispatchSpec ResponderModel ResponderSpec StreamModel StreamSpec ChannelModel.
From Verif Require CallModel.
Import ListNotations.

Section Spec.
Context {H : Type}.
Context (wp wr : site) (tp tr : ikind -> list (option H)) (sp sr : bool) (g gin : fcfg) (sid : N) (data md : bytes).

(** The subscriber of the flux that RequestChannel returned, and the subscriber of the input that the handler was given: all events of them. *)
Definition caller (c : cconf H) : list (fevent pay bytes) := flat_map (fun e => match e with EP (PV v) => [v] | _ => [] end) (x_ptr c).
Definition reader (c : cconf H) : list (fevent pay bytes) := flat_map (fun e => match e with RIV v => [v] | _ => [] end) (x_rtr c).
(** What their callbacks have seen. *)
Definition out_seen (c : cconf H) : list (fevent pay bytes) := delivered (caller c).
Definition in_seen (c : cconf H) : list (fevent pay bytes) := delivered (reader c).
(** The calls made on the flux that the handler returned, and on the flux that the caller passed. *)
Definition out_emitted (c : cconf H) : list (fcall pay bytes) := out_calls (x_rtr c).
Definition in_emitted (c : cconf H) : list (fcall pay bytes) := out_calls (flat_map (fun e => match e with EI v => [v] | _ => [] end) (x_ptr c)).

(** No sink call on the caller's flux is under way. *)
Definition qidle (ths : list (list qitem)) : bool := forallb (forallb (fun it => match it with QI it => negb (holds it) | QP _ => true end)) ths.
(** The handler has asked for items and the caller's flux has been told. *)
Definition told (c : cconf H) : Prop := exists n, In (EAsk n) (x_ptr c).

(** Executions in which items are sendable, no two sink calls on a flux overlap and the caller's flux makes them only when it has been asked for
    items; other traffic belongs to other streams. *)
Definition callowed (c : cconf H) (m : cmove) : Prop :=
  match m with
  | XPCall _ (QI (RO (FDo f))) => sendable_call f
  | XPStep i => forall it stack, nth_error (x_pths c) i = Some (QI it :: stack) -> begins it = true -> qidle (x_pths c) = true /\ told c
  | XRCall _ (RO (FDo f)) => sendable_call f
  | XRStep i => forall it stack, nth_error (x_rths c) i = Some (it :: stack) -> begins it = true -> idle (x_rths c) = true
  | XUp bs | XDown bs => foreign sid bs
  | _ => True
  end.
Inductive creach : cconf H -> Prop :=
| x_init : forall n m, creach (channel_create n m)
| x_move : forall c m c', creach c -> callowed c m -> do_cmove wp wr tp tr sp sr g gin sid data md c m = Some c' -> creach c'.

(** The subscribers cancel or close. *)
Definition cancels_it (l : list (fevent pay bytes)) : Prop := In (@FluxModel.FCancel pay bytes) (fcalls l).
Definition closes_it (l : list (fevent pay bytes)) : Prop := In (@FClose pay bytes) (fcalls l).

(** No frame is on its way, both dispatchers have nothing to do, no goroutine waits and no sink call is under way. *)
Definition crest (c : cconf H) : Prop :=
  x_up c = [] /\ x_down c = [] /\ x_ptodo c = [] /\ x_rtodo c = [] /\ x_ptasks c = [] /\ x_tasks c = [] /\
  (exists us, x_pths c = [QP (PI FUser)] :: us) /\ (exists us, x_rths c = [RO FUser] :: us) /\ qidle (x_pths c) = true /\ idle (x_rths c) = true.

(** The frames each side sent; the request is one of them. *)
Definition up_sent (c : cconf H) : list frame := flat_map (fun e => match e with EP (PSent f) | EI (RSent f) => [f] | _ => [] end) (x_ptr c).
Definition copened (c : cconf H) : Prop := exists r, In (FramesModel.FRequest r) (up_sent c).

(** Credit: what the caller granted the handler's flux and what arrived there; what the handler granted the caller's flux and what arrived. *)
Definition sum (l : list N) : N := fold_right N.add 0%N l.
Definition out_granted (c : cconf H) : N := sum (map credit (up_sent c)).
Definition out_arrived (c : cconf H) : N := sum (map snd (x_runs c)) + sum (flat_map (fun e => match e with RNet (RNRequest n) => [n] | _ => [] end) (x_rtr c)).
Definition in_granted (c : cconf H) : N := sum (map credit (sent_frames (x_rtr c))).
Definition in_arrived (c : cconf H) : N := sum (flat_map (fun e => match e with EAsk n => [n] | _ => [] end) (x_ptr c)).
End Spec.
