(** What the registries of go/invoke owe their users, in terms of the history of calls. *)
From Coq Require Import List NArith Bool.
From Verif Require Import Base OperationsModel InvokeModel.
Import ListNotations.
Open Scope N_scope.

Section Handlers.
Context {H : Type}.
Definition ikind_eq (a b : ikind) : bool := match a, b with RR, RR | FNF, FNF | RS, RS | RC, RC => true | _, _ => false end.

(** The names imported, and the names and handlers exported, of one kind, in the order of the calls. *)
Definition imported (k : ikind) (h : list (icall H)) : list info :=
  flat_map (fun c => match c with IImport k' ns op => if ikind_eq k k' then [(ns, op)] else [] | _ => [] end) h.
Definition exported (k : ikind) (h : list (icall H)) : list (info * option H) :=
  flat_map (fun c => match c with IExport k' ns op f => if ikind_eq k k' then [((ns, op), f)] else [] | _ => [] end) h.

Definition info_dec : forall a b : info, {a = b} + {a <> b}.
Proof. repeat decide equality. Defined.
(** Each name once, at its first occurrence. *)
Fixpoint firsts_after (seen l : list info) : list info :=
  match l with
  | [] => []
  | x :: l' => if in_dec info_dec x seen then firsts_after seen l' else x :: firsts_after (x :: seen) l'
  end.
Definition firsts := firsts_after [].

(** What an import returns after the history [h]. *)
Definition index_of (h : list (icall H)) (k : ikind) (x : info) : N := fst (import k (fst x) (snd x) (irun h)).
Definition few (h : list (icall H)) : Prop := len h < 2^32.
End Handlers.

Section Instances.
Context {T : Type}.
(** The allocator does not hand out the address of an object that is still referenced, i.e. of a live one. *)
Fixpoint fair_from (w : N) (s : live T) (h : list (lcall T)) : Prop :=
  match h with
  | [] => True
  | c :: h' => match c with LPut _ a => a < 2 ^ w /\ has a s = false | _ => True end /\ fair_from w (fst (lstep w s c)) h'
  end.
Definition fair (w : N) := fair_from w new_live.
(** What a Get of [id] finds after [h]. *)
Definition found (w : N) (h : list (lcall T)) (id : N) : option T := match snd (lstep w (lrun w h) (LGet id)) with inr o => o | inl _ => None end.
(** What the history says about the address [p], with addresses of [w] bits: the last Put or Remove that touches it. *)
Definition word (w p : N) (o : option T) (c : lcall T) : option T :=
  match c with
  | LPut inst a => if p =? a then Some inst else o
  | LGet _ => o
  | LRemove id => if p =? id mod 2 ^ w then None else o
  end.
Definition last_word (w : N) (h : list (lcall T)) (id : N) : option T := fold_left (word w (id mod 2 ^ w)) h None.
End Instances.

(** Linked handlers: a sequence of registrations, and the last one for an index. *)
Section Linked.
Context {H : Type}.
Definition set_all (l : list (option H)) (hs : list (N * option H)) : outcome no_err (list (option H)) :=
  fold_left (fun m p => do l' <- m ; set_handler l' (fst p) (snd p)) hs (Ret l).
Definition last_set (hs : list (N * option H)) (j : N) : option H := fold_left (fun o p => if j =? fst p then snd p else o) hs None.
End Linked.
