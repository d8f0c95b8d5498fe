(** What a request/response call owes its caller in any company. *)
From Coq Require Import List NArith Bool.
From Verif Require Import Base FramesModel FramesSpec InvokeModel MonoModel ProxyModel DispatchModel DispatchSpec CallModel CallSpec.
From Verif Require StreamSpec.
From Verif Require Import SoloModel.
Import ListNotations.
Open Scope nat_scope.

Section Spec.
Context {H : Type}.
Context (wp wr : site) (tp tr : ikind -> list (option H)) (sid : N) (data md : bytes).

(** Executions in which outcomes are sendable and other streams have other ids. *)
Definition allowed (m : move) : Prop :=
  match m with SConclude _ o => sendable_out o | SUp bs | SDown bs => StreamSpec.foreign sid bs /\ wf bs | _ => True end.
Inductive reach : conf H -> Prop :=
| so_init : reach solo_create
| so_move : forall c m c', reach c -> allowed m -> do_move wp wr tp tr sid data md c m = Some c' -> reach c'.

(** What the caller's callbacks have seen. *)
Definition results (c : conf H) : list (pay + bytes) := flat_map snd (p_subs (s_proc c)).

(** The run that belongs to the call: the handler the caller named, the data and the metadata the caller sent (for peers and guests without its first
    eight bytes). *)
Definition run_for (r : run H) : Prop :=
  r_sid r = sid /\ names tr RR md (r_handler r) /\ r_data r = data /\ r_md r = handler_metadata wr RR md.
(** The outcome of the call: that of its run, or an error if it names no handler. *)
Definition outcome_for (c : conf H) (o : pay + bytes) : Prop :=
  (exists r, s_runs c = [r] /\ run_for r /\ r_out r = Some o)
  \/ (s_runs c = [] /\ (forall h, ~ names tr RR md h) /\ o = inr (if len md <? 8 then invalid_metadata else not_found)%N).

(** Nothing is under way. *)
Definition at_rest (c : conf H) : Prop :=
  s_user c = [] /\ s_ptodo c = [] /\ s_up c = [] /\ s_down c = [] /\ s_rtodo c = [] /\ s_tasks c = [] /\ Forall (fun r => r_out r <> None) (s_runs c).

(** The moves that are not the caller's or of other streams, and how many of them are left at most. *)
Definition inner (m : move) : bool := match m with SSubscribe | SUp _ | SDown _ => false | _ => true end.
Definition mine (bs : bytes) : bool := match frame_parse bs with Ret (Some f) => (frame_sid f =? sid)%N | _ => false end.
Definition load (n : nat) (l : list bytes) : nat := list_sum (map (fun bs => if mine bs then n else 1) l).
Definition work (c : conf H) : nat :=
  20 * length (s_user c) + load 12 (s_up c) + 10 * length (s_rtodo c) + 8 * length (s_tasks c)
  + 6 * length (filter (fun r => match r_out r with None => true | _ => false end) (s_runs c)) + load 5 (s_down c) + length (s_ptodo c).
End Spec.
