(** What the outcome of a mono is, whichever way one asks. *)
From Coq Require Import List Arith Bool.
From Verif Require Import MonoModel FluxModel FluxSpec OutcomeModel.
Import ListNotations.

Section Spec.
Context {V E : Type}.

(** A created mono ends with the first call on its subscription; a mapped one with the transformed outcome. *)
Fixpoint outcome_of (m : mono_expr V E) : option (V + E) :=
  match m with
  | Just v => Some (inl v)
  | MError e => Some (inr e)
  | Created _ (KSuccess v :: _) => Some (inl v)
  | Created _ (KError e :: _) => Some (inr e)
  | Created _ _ => None
  | Map m tx => match outcome_of m with Some (inl v) => Some (tx v) | o => o end
  end.

(** The signal of the first call, if the mono is made from a created one; [None] too when it was given its value. *)
Fixpoint ended_with (m : mono_expr V E) : option signal :=
  match m with
  | Created _ (KSuccess _ :: _) => Some SigComplete
  | Created _ (KError _ :: _) => Some SigError
  | Created _ (KCancel :: _) => Some SigCancel
  | Map m _ => ended_with m
  | _ => None
  end.

(** Made from a created mono that was cancelled; never subscribed to before. *)
Definition cancelled (m : mono_expr V E) : bool := match ended_with m with Some SigCancel => true | _ => false end.
Fixpoint fresh (m : mono_expr V E) : bool :=
  match m with Created prev _ => match prev with None => true | _ => false end | Map m _ => fresh m | _ => true end.

(** The pair of Go results that stands for an outcome. *)
Definition results (zero : V) (o : V + E) : V * option E := match o with inl v => (v, None) | inr e => (zero, Some e) end.

(** All transforms from the inside out. *)
Fixpoint transforms (m : mono_expr V E) (v : V) : V + E :=
  match m with
  | Map m tx => match transforms m v with inl w => tx w | e => e end
  | _ => inl v
  end.
End Spec.

Section FluxSpec.
Context {T E : Type}.
(** The error the source ended with, if that is how the subscription ended. *)
Definition ending_error (l : list (fcall T E)) : option E := match closer l with Some (FError e) => Some e | _ => None end.
(** The first error of a transform. *)
Definition first_failure {D} (tx : T -> D + E) (l : list (fcall T E)) : option E :=
  match failing tx l with FNext v :: _ => match tx v with inr e => Some e | inl _ => None end | _ => None end.
Definition endings (l : list (fcall T E)) : nat := match closer l with Some FComplete | Some (FError _) => 1 | _ => 0 end.
End FluxSpec.
