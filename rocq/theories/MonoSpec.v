(** What a mono owes its subscribers, in terms of the observed trace only. *)
From Coq Require Import List Arith Bool Permutation.
From Verif Require Import MonoModel.
Import ListNotations.

Section Spec.
Context {T E : Type}.

(** The calls made, in order; the configuration of every subscription. *)
Definition calls (tr : list (mevent T E)) : list (mcall T E) :=
  flat_map (fun e => match e with EvCall c => [c] | _ => [] end) tr.
Definition cfgs (tr : list (mevent T E)) : list mcfg :=
  flat_map (fun c => match c with CSubscribe g => [g] | _ => [] end) (calls tr).

(** The first call that ends subscription [i]. *)
Definition ends (i : nat) (c : mcall T E) : bool :=
  match c with CSuccess j _ | CError j _ | CCancel j => Nat.eqb i j | _ => false end.
Definition winner (i : nat) (tr : list (mevent T E)) : option (mcall T E) := find (ends i) (calls tr).

(** The callbacks of subscription [i] seen so far. *)
Definition about (i : nat) (e : mevent T E) : bool :=
  match e with EvSuccess j _ | EvError j _ | EvFinally j _ => Nat.eqb i j | _ => false end.
Definition seen (i : nat) (tr : list (mevent T E)) : list (mevent T E) := filter (about i) tr.

(** The callbacks owed for the winning call. *)
Definition owed (i : nat) (g : mcfg) (c : mcall T E) : list (mevent T E) :=
  match c with
  | CSuccess _ v => if c_success g then [EvSuccess i v] else []
  | CError _ e => if c_error g then [EvError i e] else []
  | _ => []
  end ++
  (if c_finally g
   then [EvFinally i (match c with CSuccess _ _ => SigComplete | CError _ _ => SigError | _ => SigCancel end)]
   else []).

(** The same for a mono mapped with [tx]: a value is first transformed, and the outcome is an error if that fails. *)
Definition map_owed {D} (tx : T -> D + E) (i : nat) (g : mcfg) (c : mcall T E) : list (nat * (D + E) + nat * signal) :=
  (let outcome := match c with CSuccess _ v => Some (tx v) | CError _ e => Some (inr e) | _ => None end in
   match outcome with
   | Some (inl d) => if c_success g then [inl (i, inl d)] else []
   | Some (inr e) => if c_error g then [inl (i, inr e)] else []
   | None => []
   end) ++
  (if c_finally g
   then [inr (i, match c with CSuccess _ _ => SigComplete | CError _ _ => SigError | _ => SigCancel end)]
   else []).

(** What Get returns after the winning call. *)
Definition got (c : mcall T E) : mevent T E :=
  match c with
  | CSuccess _ v => EvGot (Some v) None
  | CError _ e => EvGot None (Some e)
  | _ => EvGot None None
  end.

(** The Notify callbacks run so far, by the number of their registration; the registrations so far. *)
Definition notified (tr : list (mevent T E)) : list nat :=
  flat_map (fun e => match e with EvNotify k _ => [k] | _ => [] end) tr.
Definition registered (tr : list (mevent T E)) : nat :=
  length (filter (fun c => match c with CNotify => true | _ => false end) (calls tr)).

(** The signal a call ends a mono with; the registrations made before the call that ends subscription 0. *)
Definition sig_of (c : mcall T E) : signal :=
  match c with CSuccess _ _ => SigComplete | CError _ _ => SigError | _ => SigCancel end.
Fixpoint early_in (l : list (mcall T E)) : nat :=
  match l with
  | [] => 0
  | CNotify :: l' => S (early_in l')
  | c :: l' => if ends 0 c then 0 else early_in l'
  end.
Definition early (tr : list (mevent T E)) : nat := early_in (calls tr).

Definition is_prefix {A} (a b : list A) : Prop := exists c, b = a ++ c.

(** ** Processor *)

(** The history before the first subscription, and after each one. *)
Fixpoint segments (h : list (pcall T E)) : list (T + E) * list (list (T + E)) :=
  match h with
  | [] => ([], [])
  | PSubscribe :: h' => let '(a, l) := segments h' in ([], a :: l)
  | PSuccess v :: h' => let '(a, l) := segments h' in (inl v :: a, l)
  | PError e :: h' => let '(a, l) := segments h' in (inr e :: a, l)
  end.

(** The outcome kept for later subscribers: the last value, or else the last error, produced before the first one. *)
Fixpoint last_value (l : list (T + E)) : option T :=
  match l with
  | [] => None
  | inl v :: l' => match last_value l' with Some w => Some w | None => Some v end
  | inr _ :: l' => last_value l'
  end.
Fixpoint last_error (l : list (T + E)) : option E :=
  match l with
  | [] => None
  | inr v :: l' => match last_error l' with Some w => Some w | None => Some v end
  | inl _ :: l' => last_error l'
  end.
Definition kept (l : list (T + E)) : option (T + E) :=
  match last_value l, last_error l with Some v, _ => Some (inl v) | None, Some e => Some (inr e) | None, None => None end.
Definition replayed (h : list (pcall T E)) : list (list (T + E)) :=
  let '(before, after) := segments h in
  match kept before with
  | Some o => map (fun _ => [o]) after
  | None => map (firstn 1) after
  end.
End Spec.
