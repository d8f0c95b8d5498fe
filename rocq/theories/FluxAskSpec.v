(** When a flux asks its subscriber for more (OnRequest), and when it tells its source to stop (Cancel). *)
From Coq Require Import List Arith ZArith Bool.
From Verif Require Import MonoModel FluxModel FluxSpec FluxDemandSpec.
Import ListNotations.
Open Scope Z_scope.

Section Spec.
Context {T E : Type}.
Implicit Types (tr : list (fevent T E)) (g : fcfg) (l : list (fcall T E)).

(** Items that reached OnNext. *)
Definition items tr : Z := total (fun e => match e with VNext _ => 1 | _ => 0 end) tr.
(** A subscriber with OnNext and OnRequest, which is not told not to ask. *)
Definition asks_more g : Prop := k_next g = true /\ k_request g = true /\ k_norequest g = false.
(** It requests positive numbers of items. *)
Definition eager tr : Prop := forall n, In (VCall (FRequest n)) tr -> 0 < n.
(** Its source hands over its functions once, and never sends more items than it has been asked for. *)
Definition paced tr : Prop :=
  onsubs tr <= 1 /\ (forall c, ~ In (VCall (FOnSubscribe false c)) tr) /\ forall a b, tr = a ++ b -> nexts a <= asked a.
(** OnRequest was run when everything ever requested had already been delivered. *)
Definition asked_for_more tr : Prop := exists a b, tr = a ++ VOnRequest :: b /\ requested a = requested tr /\ items a = items tr.

(** How often OnRequest was run while the number of items requested was not that of those delivered; [d] is the difference so far. *)
Fixpoint hasty (d : Z) tr : nat :=
  match tr with
  | [] => 0
  | VCall (FRequest n) :: tr' => hasty (d + n) tr'
  | VNext _ :: tr' => hasty (d - 1) tr'
  | VOnRequest :: tr' => (if d =? 0 then 0 else 1) + hasty d tr'
  | _ :: tr' => hasty d tr'
  end.

(** Cancel calls made once the source had handed over a Cancel function to a subscription that was open. *)
Fixpoint told (can closed : bool) l : nat :=
  match l with
  | [] => 0
  | FCancel :: l' => (if can then 1 else 0) + told can true l'
  | FOnSubscribe _ c :: l' => told (if closed then can else c) closed l'
  | c :: l' => told can (closed || closes c) l'
  end.
Definition stops tr : nat := length (filter (fun e => match e with VCancelSrc => true | _ => false end) tr).
Definition asks tr : nat := length (filter (fun e => match e with VOnRequest => true | _ => false end) tr).
End Spec.
