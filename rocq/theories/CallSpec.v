(** What a request/response call owes its caller. *)
From Coq Require Import List NArith Bool.
From Verif Require Import Base FramesModel FramesSpec InvokeModel StreamIdModel MonoModel ProxyModel DispatchModel DispatchSpec CallModel.
Import ListNotations.
Open Scope N_scope.

Section Spec.
Context {H : Type}.
Context (w : side -> site) (tbl : side -> ikind -> list (option H)).

(** Payloads and error messages that a frame can carry, with metadata that survives (C03). *)
Definition sendable (data md : bytes) : Prop := wf md /\ len md < 2^24 /\ fits32 md data.
Definition sendable_out (o : pay + bytes) : Prop := match o with inl (data, md) => len md < 2^24 /\ fits32 md data | inr msg => len msg < 2^32 - 13 end.

(** Executions in which payloads are sendable, a mono is subscribed at most once, and no side makes more than 2^30 calls (after which ids are used
    again, C10). *)
Definition allowed (st : net H) (m : move) : Prop :=
  match m with
  | MCall s data md => sendable data md /\ len (p_calls (n_peer st s)) < 2^30
  | MSubscribe s k => forall c, nth_error (p_calls (n_peer st s)) k = Some c -> c_subscribed c = false
  | MConclude _ _ o => sendable_out o
  | _ => True
  end.
Inductive net_reach : net H -> Prop :=
| n_init : net_reach net_create
| n_move : forall st m st', net_reach st -> allowed st m -> do_move w tbl st m = Some st' -> net_reach st'.

(** What the caller's callbacks have seen. *)
Definition results (c : call) : list (pay + bytes) := flat_map snd (p_subs (c_proc c)).

(** The run that belongs to a call: same stream, the handler the caller named, the data and the metadata the caller sent (for peers and guests
    without its first eight bytes). *)
Definition run_for (s : side) (c : call) (r : run H) : Prop :=
  r_sid r = c_sid c /\ names (tbl (other s)) RR (c_md c) (r_handler r) /\ r_data r = c_data c /\ r_md r = handler_metadata (w (other s)) RR (c_md c).
(** The outcome of a call made by [s]: that of its run, or an error if it names no handler. *)
Definition outcome_for (st : net H) (s : side) (c : call) (o : pay + bytes) : Prop :=
  (exists r, In r (p_runs (n_peer st (other s))) /\ run_for s c r /\ r_out r = Some o)
  \/ ((forall h, ~ names (tbl (other s)) RR (c_md c) h) /\ o = inr (if len (c_md c) <? 8 then invalid_metadata else not_found)).

(** Nothing is under way. *)
Definition at_rest (st : net H) : Prop :=
  forall s, n_wire st s = [] /\ p_tasks (n_peer st s) = [] /\ Forall (fun r => r_out r <> None) (p_runs (n_peer st s)).

(** The moves other than those of the callers, and how many of them are left. *)
Definition inner (m : move) : bool := match m with MCall _ _ _ | MSubscribe _ _ => false | _ => true end.
Definition pending (l : list (run H)) : nat := length (filter (fun r => match r_out r with None => true | _ => false end) l).
Definition weight (bs : bytes) : nat := match frame_parse bs with Ret (Some (FramesModel.FRequest _)) => 4 | _ => 1 end.
Definition work_at (st : net H) (s : side) : nat :=
  list_sum (map weight (n_wire st s)) + 3 * length (p_tasks (n_peer st s)) + 2 * pending (p_runs (n_peer st s)).
Definition work (st : net H) : nat := work_at st Client + work_at st Server.
End Spec.
