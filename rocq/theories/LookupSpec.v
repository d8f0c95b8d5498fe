(** What a registry of streams should do, independently of how it is stored. *)
From Coq Require Import List NArith Bool.
From Verif Require Import LookupModel.
Import ListNotations.

Section Spec.
Context {S : Type}.
Implicit Types (ops : list (lop S)).

(** The stream a map would hold under [id] after the history. *)
Definition map_after ops (id : N) : option S :=
  fold_left (fun m op => match op with
                         | OAdd i s => if N.eqb i id then Some s else m
                         | ORemove i => if N.eqb i id then None else m
                         end) ops None.

(** Every registration uses an id that is not in use. *)
Definition fresh_adds ops : Prop :=
  forall pre id s post, ops = pre ++ OAdd id s :: post -> map_after pre id = None.

(** The stream registered first in the whole history. *)
Fixpoint oldest ops : option (N * S) :=
  match ops with
  | [] => None
  | OAdd id s :: _ => Some (id, s)
  | ORemove _ :: ops' => oldest ops'
  end.

(** The history removes the stream registered first. *)
Definition removes_oldest ops : Prop :=
  exists pre id s post, ops = pre ++ ORemove id :: post /\ oldest pre = Some (id, s).

(** ---- what the code does, as a list of entries; [true]: the entry can no longer be unlinked ---- *)
Definition entry := (N * S * bool)%type.

Definition detach (d : bool) (c : list entry) : list entry :=
  match c with [] => [] | (i, s, _) :: c' => (i, s, d) :: c' end.

Definition chain_add (c : list entry) (id : N) (s : S) : list entry :=
  c ++ [(id, s, match c with [] => true | _ => false end)].

Fixpoint chain_remove (c : list entry) (id : N) : list entry :=
  match c with
  | [] => []
  | (i, s, d) :: c' => if N.eqb i id then (if d then (i, s, d) :: detach true c' else detach false c')
                       else (i, s, d) :: chain_remove c' id
  end.

Definition chain_op (c : list entry) (op : lop S) : list entry :=
  match op with OAdd id s => chain_add c id s | ORemove id => chain_remove c id end.

Definition chain_after ops : list entry := fold_left chain_op ops [].

Fixpoint chain_get (c : list entry) (id : N) : option S :=
  match c with
  | [] => None
  | (i, s, _) :: c' => if N.eqb i id then Some s else chain_get c' id
  end.

End Spec.
Arguments entry : clear implicits.
