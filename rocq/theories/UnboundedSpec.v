(** What a user of the unbounded buffer relies on, in terms of observed events only. *)
From Coq Require Import List Bool.
From Verif Require Import UnboundedModel.
Import ListNotations.

Section Spec.
Context {T : Type}.

(** Values accepted by Put, in order. *)
Fixpoint accepted (es : list (event T)) : list T :=
  match es with
  | [] => []
  | EvAccepted t :: es' => t :: accepted es'
  | _ :: es' => accepted es'
  end.

(** Values received by the consumer, in order. *)
Fixpoint received (es : list (event T)) : list T :=
  match es with
  | [] => []
  | EvReceived t :: es' => t :: received es'
  | _ :: es' => received es'
  end.

(** The consumer has received a value and nobody has called Load since. *)
Definition owes_load (es : list (event T)) : bool :=
  fold_left (fun b e => match e with EvReceived _ => true | EvLoaded _ => false | _ => b end) es false.

Definition is_prefix (a b : list T) : Prop := exists c, b = a ++ c.

End Spec.
