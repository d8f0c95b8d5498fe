(** What a flux owes its subscriber, in terms of the calls made and the callbacks seen. *)
From Coq Require Import List Arith ZArith Bool.
From Verif Require Import MonoModel FluxModel.
Import ListNotations.

Section Spec.
Context {T E : Type}.
Implicit Types (tr : list (fevent T E)) (l : list (fcall T E)) (g : fcfg).

Definition fcalls tr : list (fcall T E) := flat_map (fun e => match e with VCall c => [c] | _ => [] end) tr.

(** The calls that close a subscription, and the calls up to the first of them. *)
Definition closes (c : fcall T E) : bool := match c with FComplete | FError _ | FCancel | FClose => true | _ => false end.
Definition closer l : option (fcall T E) := find closes l.
Fixpoint upto l : list (fcall T E) :=
  match l with
  | [] => []
  | c :: l' => if closes c then [c] else c :: upto l'
  end.

(** What each of those calls delivers. *)
Definition delivers g (c : fcall T E) : list (fevent T E) :=
  match c with
  | FNext v => if k_next g then [VNext v] else []
  | FComplete => if k_complete g then [VComplete] else []
  | FError e => if k_error g then [VError e] else []
  | _ => []
  end.
Definition expected g l : list (fevent T E) := flat_map (delivers g) (upto l).
Definition is_delivery (e : fevent T E) : bool := match e with VNext _ | VComplete | VError _ => true | _ => false end.
Definition delivered tr : list (fevent T E) := filter is_delivery tr.

(** Items, then at most one terminal event. *)
Definition is_terminal (e : fevent T E) : bool := match e with VComplete | VError _ => true | _ => false end.
Fixpoint well_formed (d : list (fevent T E)) : bool :=
  match d with
  | [] => true
  | [e] => is_delivery e
  | VNext _ :: d' => well_formed d'
  | _ => false
  end.

(** The signals Finally runs with. *)
Definition finals tr : list signal := flat_map (fun e => match e with VFinally s => [s] | _ => [] end) tr.
Definition expected_finals g l : list signal :=
  if k_finally g
  then match closer l with Some FComplete => [SigComplete] | Some (FError _) => [SigError] | _ => [] end ++
       flat_map (fun c => match c with FCancel => [SigCancel] | _ => [] end) l
  else [].

(** Notify: registrations made, registrations made before the first closing call, callbacks run. *)
Definition fregistered l : nat := length (filter (fun c => match c with FNotify => true | _ => false end) l).
Definition fearly l : nat := fregistered (upto l).
Definition fnotified tr : list nat := flat_map (fun e => match e with VNotify k _ => [k] | _ => [] end) tr.
Definition fsignal l : signal := match closer l with Some (FError _) => SigError | _ => SigComplete end.

(** Cancel calls. *)
Definition cancels l : nat := length (filter (fun c => match c with FCancel => true | _ => false end) l).
(** Finally runs exactly once: the source ended the subscription and nobody cancelled, or nobody but one Cancel. *)
Definition finally_once l : Prop :=
  match closer l with
  | Some FComplete | Some (FError _) => cancels l = 0
  | Some _ => cancels l = 1
  | None => False
  end.
(** Block (flux_host.go:40-59): its Finally closes a channel, which panics the second time; Block returns once it is
    closed. *)
Inductive block_status := Waiting | Returned | Panicked.
Definition block_after tr : block_status := match finals tr with [] => Waiting | [_] => Returned | _ => Panicked end.
End Spec.

(** ** Map *)
Section MapSpec.
Context {T E D : Type} (tx : T -> D + E) (g : fcfg).
Definition map_delivers (c : fcall T E) : list (fevent D E) :=
  match c with
  | FNext v => match tx v with inl d => if k_next g then [VNext d] else [] | inr e => if k_error g then [VError e] else [] end
  | FComplete => if k_complete g then [VComplete] else []
  | FError e => if k_error g then [VError e] else []
  | _ => []
  end.
Definition map_expected (l : list (fcall T E)) : list (fevent D E) := flat_map map_delivers (upto l).
(** The calls of Next, before the subscription ends, whose values cannot be transformed. *)
Definition fails (c : fcall T E) : bool := match c with FNext v => match tx v with inr _ => true | _ => false end | _ => false end.
Definition delivering (c : fcall T E) : bool := match c with FNext _ | FComplete | FError _ => true | _ => false end.
Definition failing (l : list (fcall T E)) : list (fcall T E) := filter fails (upto l).
(** No call delivers anything after a failed transformation. *)
Fixpoint silent_after (l : list (fcall T E)) : bool :=
  match l with
  | [] => true
  | c :: l' => if fails c then negb (existsb delivering l') else silent_after l'
  end.
End MapSpec.
