(** What fire-and-forget calls should do. *)
From Coq Require Import List NArith Bool.
From Verif Require Import Base FramesModel FramesSpec InvokeModel StreamIdModel DispatchModel DispatchSpec CallModel CallSpec FnfModel.
Import ListNotations.
Open Scope N_scope.

Section Spec.
Context {H : Type}.
Context (w : side -> site) (tbl : side -> ikind -> list (option H)).

(** The handler that metadata name. *)
Definition handler_for (l : list (option H)) (md : bytes) : option H :=
  if len md <? 8 then None else match nth_error l (N.to_nat (number4 md)) with Some h => h | None => None end.

(** What becomes of a call made by [s]: a run of the handler named, or a refusal. *)
Definition fate (s : side) (c : fcall) : frun H + (N * bytes) :=
  match handler_for (tbl (other s) FNF) (fc_md c) with
  | Some h => inl (mkFRun h (fc_sid c) (fc_data c) (handler_metadata (w (other s)) FNF (fc_md c)))
  | None => inr (fc_sid c, if len (fc_md c) <? 8 then invalid_metadata else not_found)
  end.
Definition lefts {A B} (l : list (A + B)) : list A := flat_map (fun x => match x with inl a => [a] | _ => [] end) l.
Definition rights {A B} (l : list (A + B)) : list B := flat_map (fun x => match x with inr b => [b] | _ => [] end) l.
Definition due_runs (s : side) (l : list fcall) : list (frun H) := lefts (map (fate s) l).
Definition due_refusals (s : side) (l : list fcall) : list (N * bytes) := rights (map (fate s) l).

(** Refusals among received frames. *)
Definition refusals (l : list bytes) : list (N * bytes) :=
  flat_map (fun bs => match frame_parse bs with Ret (Some (FError sid _ msg)) => [(sid, msg)] | _ => [] end) l.

(** Executions in which payloads are sendable and no side makes more than 2^62 calls. *)
Definition fallowed (st : fnet H) (m : fmove) : Prop :=
  match m with MFire s data md => sendable data md /\ len (fp_calls (fn_peer st s)) < 2^62 | _ => True end.
Inductive fnet_reach : fnet H -> Prop :=
| fn_init : fnet_reach fnet_create
| fn_move : forall st m st', fnet_reach st -> fallowed st m -> do_fmove w tbl st m = Some st' -> fnet_reach st'.

Definition fat_rest (st : fnet H) : Prop := forall s, fn_wire st s = [] /\ fp_tasks (fn_peer st s) = [].
Definition finner (m : fmove) : bool := match m with MFire _ _ _ => false | _ => true end.
(** How much is left to do. *)
Definition fweight (bs : bytes) : nat := match frame_parse bs with Ret (Some (FRequest _)) => 3 | _ => 1 end.
Definition fwork_at (st : fnet H) (s : side) : nat := list_sum (map fweight (fn_wire st s)) + 2 * length (fp_tasks (fn_peer st s)).
Definition fwork (st : fnet H) : nat := fwork_at st Client + fwork_at st Server.
End Spec.
