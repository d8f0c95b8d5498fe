(** Demand: what a subscriber has asked for, and what its source is asked for. *)
From Coq Require Import List Arith ZArith Bool.
From Verif Require Import MonoModel FluxModel FluxSpec.
Import ListNotations.
Open Scope Z_scope.

Section Spec.
Context {T E : Type}.
Implicit Types (tr : list (fevent T E)) (g : fcfg).

Definition total {A} (w : A -> Z) (l : list A) : Z := fold_right (fun a n => w a + n) 0 l.

(** The sum of the Request calls; the sum of what the source was asked for; calls of Next, of OnSubscribe, of Subscribe. *)
Definition requested tr : Z := total (fun e => match e with VCall (FRequest n) => n | _ => 0 end) tr.
Definition asked tr : Z := total (fun e => match e with VReqSrc n => n | _ => 0 end) tr.
Definition nexts tr : Z := total (fun e => match e with VCall (FNext _) => 1 | _ => 0 end) tr.
Definition onsubs tr : Z := total (fun e => match e with VCall (FOnSubscribe _ _) => 1 | _ => 0 end) tr.
Definition subscribed tr : Z := total (fun e => match e with VCall FSubscribe => 1 | _ => 0 end) tr.

(** A subscription without OnRequest and without NoRequest asks for RequestMax by itself. *)
Definition automatic g : bool := negb (k_norequest g) && negb (k_request g).

(** The source hands over its functions once, with a Request function, and sends items only once asked. *)
Definition answers tr : Prop :=
  onsubs tr <= 1 /\ (forall c, ~ In (VCall (FOnSubscribe false c)) tr) /\
  forall a v b, tr = a ++ VCall (FNext v) :: b -> exists n, In (VReqSrc n) a.
(** No negative Request; none at all, and less than RequestMax items, if the subscription asks by itself. *)
Definition sensible g tr : Prop :=
  (forall n, In (VCall (FRequest n)) tr -> 0 <= n) /\
  (automatic g = true -> (forall n, ~ In (VCall (FRequest n)) tr) /\ nexts tr < request_max).
(** The source came with its functions before anything closed the subscription. *)
Definition welcomed tr : Prop := exists a c b, tr = a ++ VCall (FOnSubscribe true c) :: b /\ closer (fcalls a) = None.

(** What has been asked for in all. *)
Definition demand g tr : Z := requested tr + (if automatic g then subscribed tr * request_max else 0).
End Spec.
