(** What a flow owes the writer of its steps, in terms of what was observed. *)
From Coq Require Import List Arith Bool.
From Verif Require Import FlowModel.
Import ListNotations.

Definition runs (tr : list wevent) : list nat := flat_map (fun e => match e with WRun i => [i] | _ => [] end) tr.
Definition is_done (r : nat) (e : wevent) : bool := match e with WDone x => x =? r | _ => false end.
Definition dones (r : nat) (tr : list wevent) : nat := length (filter (is_done r) tr).

(** No group is complete before the step that returned it has been dealt with: at least one of its awaitables calls back
    later. *)
Definition unhurried (tr : list wevent) : Prop :=
  forall a r b k, tr = a ++ WDone r :: b -> In (WOpen r k) a -> ~ In (WClosed r) a -> dones r a + 1 < k.

(** A step starts only when the one before has returned a non-empty group that is complete. *)
Definition waited (tr : list wevent) : Prop :=
  forall a r b, tr = a ++ WRun (S r) :: b -> exists k, k > 0 /\ In (WOpen r k) a /\ In (WClosed r) a /\ dones r a = k.
(** Nothing starts after an error, or after a step that ended the flow; at most one step starts after End. *)
Definition stops (tr : list wevent) : Prop :=
  (forall a r b, tr = a ++ WErr r :: b -> runs b = []) /\ (forall a r b, tr = a ++ WStop r :: b -> runs b = []) /\
  (forall a b, tr = a ++ WEnd :: b -> length (runs b) <= 1).
(** Nothing went wrong, and everything that was waited for has called back. *)
Definition fulfilled (tr : list wevent) : Prop :=
  (forall r, ~ In (WErr r) tr) /\ ~ In WEnd tr /\ (forall r k, In (WOpen r k) tr -> k > 0 /\ dones r tr = k).
