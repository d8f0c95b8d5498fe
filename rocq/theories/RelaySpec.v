(** What a call through the mesh owes its caller. *)
From Coq Require Import List NArith Bool.
From Verif Require Import Base FramesModel FramesSpec OperationsModel InvokeModel StreamIdModel MonoModel ProxyModel DispatchModel DispatchSpec CallModel CallSpec MeshModel RelayModel.
Import ListNotations.
Open Scope N_scope.

Section Spec.
Context {G : Type}.
Context (m : mesh) (exported : nat -> ikind -> list (option G)).
Notation net := (net (destination + G)).

(** Meshes of [n] modules whose tables make sense: fewer than 2^32 handlers each, links to loaded modules and to indices that are uint32s. *)
Definition mesh_ok (n : nat) : Prop :=
  (forall i k, len (m_tabs m i k) < 2^32 /\ len (exported i k) < 2^32) /\
  (forall i k d, In (Some d) (m_tabs m i k) -> (d_inst d < n)%nat /\ d_index d < 2^32).

(** Executions in which what guests and the application do is as in [CallSpec.allowed], and no instance makes more than 2^30 calls. *)
Definition relay_allowed (r : relay G) (mv : rmove) : Prop :=
  match mv with
  | RNet i mv => forall st, nth_error (y_nets r) i = Some st -> allowed st mv
  | RForward i j => Forall (fun st : net => len (p_calls (n_peer st Server)) < 2^30) (y_nets r)
  | RBack _ => True
  end.
Inductive relay_reach (n : nat) : relay G -> Prop :=
| y_init : relay_reach n (relay_create n)
| y_move : forall r mv r', relay_reach n r -> relay_allowed r mv -> do_relay m exported r mv = Some r' -> relay_reach n r'.

(** The export an import in slot number [number4 md] of module [i] is linked to. *)
Definition leads_to (i : nat) (md : bytes) (d : destination) : Prop := 8 <= len md /\ nth_error (m_tabs m i RR) (N.to_nat (number4 md)) = Some (Some d).

(** The outcome of a call [c] made by the guest of module [i]: it names no linked import, and is refused by its own host; or it is linked, but to nothing
    the other module can run, and is refused by that; or it is the outcome of a run, in the guest it is linked to, of the handler of that index, with the
    caller's data and metadata (without the eight bytes that were used up). *)
Definition relayed (r : relay G) (i : nat) (c : call) (o : pay + bytes) : Prop :=
  ((forall d, ~ leads_to i (c_md c) d) /\ o = inr (if len (c_md c) <? 8 then invalid_metadata else not_found)) \/
  exists d, leads_to i (c_md c) d /\
    (((forall g, nth_error (exported (d_inst d) RR) (N.to_nat (d_index d)) <> Some (Some g)) /\ o = inr not_found) \/
     exists st x g, nth_error (y_nets r) (d_inst d) = Some st /\ In x (p_runs (n_peer st Client)) /\ r_handler x = inr g /\
       nth_error (exported (d_inst d) RR) (N.to_nat (d_index d)) = Some (Some g) /\ r_data x = c_data c /\ r_md x = skipn 8 (c_md c) /\ r_out x = Some o).

(** Nothing is under way. *)
Definition relay_rest (r : relay G) : Prop := Forall at_rest (y_nets r).

(** Moves other than those of callers, and a bound on how many of them are left. *)
Definition relay_inner (mv : rmove) : bool := match mv with RNet _ mv => inner mv | _ => true end.
Definition subscribed_by (st : net) (s : side) : nat := length (filter c_subscribed (p_calls (n_peer st s))).
Definition net_left (st : net) : nat := work st + 5 * (subscribed_by st Client - length (p_runs (n_peer st Server))).
Definition left_over (r : relay G) : nat := list_sum (map net_left (y_nets r)).

(** Enough stream ids for all that is under way. *)
Definition roomy (r : relay G) : Prop := Forall (fun st : net => len (p_calls (n_peer st Server)) + N.of_nat (left_over r) < 2^30) (y_nets r).
End Spec.
