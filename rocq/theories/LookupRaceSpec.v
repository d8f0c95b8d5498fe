(** What calls of a registry made at the same time should come to: each takes effect at one moment between its
    beginning and its end (linearizability). *)
From Coq Require Import List NArith.
From Verif Require Import Base LookupModel LookupSpec LookupRaceModel.
Import ListNotations.
Open Scope nat_scope.

Section Spec.
Context {S : Type}.
Implicit Types (w : world S).

(** Every state that calls and steps in any order lead to. *)
Definition race_reach w : Prop := exists ms, rrun world0 ms = Some w.

(** The Adds and Removes that have taken effect, in order. *)
Definition effects w : list (lop S) := map snd (w_hist w).

(** The registry as a map when the first [k] of them had taken effect. *)
Definition held w (k : nat) (id : N) : option S := map_after (firstn k (effects w)) id.

(** [k] is a moment between the beginning and the end of the call. *)
Definition during (t : rthread S) (k : nat) : Prop := t_from t <= k /\ k <= t_till t.

(** Goroutine [i] is in, or has returned from, the call [t]. *)
Definition runs w (i : nat) (t : rthread S) : Prop := nth_error (w_ths w) i = Some t.

Definition returned (t : rthread S) : Prop :=
  match t_pc t with GDone _ => True | WDone => True | _ => False end.

(** The operation a call is to have. *)
Definition writes (c : rcall S) : option (lop S) :=
  match c with CGet _ => None | CAdd id s => Some (OAdd id s) | CRemove id => Some (ORemove id) end.

(** How many registrations were begun. *)
Definition adds w : nat :=
  length (filter (fun t => match t_call t with CAdd _ _ => true | _ => false end) (w_ths w)).

End Spec.
