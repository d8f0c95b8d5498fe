(** What a slice source owes its subscriber. *)
From Coq Require Import List Arith ZArith Bool.
From Verif Require Import MonoModel FluxModel FluxSpec.
Import ListNotations.

Section Spec.
Context {T E : Type}.
(** The items the source asked for so far: every request reaching the source counts, negative ones as nothing. *)
Definition requested (tr : list (fevent T E)) : Z :=
  fold_right Z.add 0%Z (flat_map (fun e => match e with VReqSrc n => [Z.max 0 n] | _ => [] end) tr).
Definition asked (tr : list (fevent T E)) : bool := existsb (fun e => match e with VReqSrc _ => true | _ => false end) tr.
(** The items handed out so far, and whether completion was signalled. *)
Definition handed (tr : list (fevent T E)) : list T := flat_map (fun c => match c with FNext v => [v] | _ => [] end) (fcalls tr).
Definition completes (c : fcall T E) : bool := match c with FComplete => true | _ => false end.
Definition signalled (tr : list (fevent T E)) : bool := existsb completes (fcalls tr).
(** Nobody cancelled. *)
Definition uncancelled (tr : list (fevent T E)) : bool :=
  forallb (fun c => match c with FCancel | FClose => false | _ => true end) (fcalls tr).
End Spec.
