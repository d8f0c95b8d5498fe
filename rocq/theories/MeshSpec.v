(** Who an import should be linked to, in terms of the operation tables loaded. *)
From Coq Require Import List NArith Bool.
From Verif Require Import Base OperationsModel InvokeModel InvokeSpec MeshModel.
Import ListNotations.
Open Scope N_scope.

(** The exports in a table, and in consecutive tables, with the instance they belong to. *)
Definition exports_in (i : nat) (t : list operation) : list (info * destination) :=
  flat_map (fun o => if op_dir o =? 1 then [((op_ns o, op_name o), mkDest i (op_index o))] else []) t.
Fixpoint numbered (i : nat) (h : list (list operation)) : list (list (info * destination)) :=
  match h with [] => [] | t :: h' => exports_in i t :: numbered (S i) h' end.
Definition all_exports (h : list (list operation)) : list (info * destination) := concat (numbered 0 h).

(** The last one of a name; the last one in the first group that has one. *)
Definition last_export (x : info) (l : list (info * destination)) : option destination :=
  fold_left (fun acc p => if info_dec (fst p) x then Some (snd p) else acc) l None.
Fixpoint first_group (x : info) (ls : list (list (info * destination))) : option destination :=
  match ls with
  | [] => None
  | l :: ls' => match last_export x l with Some d => Some d | None => first_group x ls' end
  end.

(** Tables as guests publish them: the imports of one kind have different indices, none of them 2^32-1. *)
Definition import_slots (t : list operation) : list (N * N) :=
  flat_map (fun o => if op_dir o =? 2 then [(op_type o, op_index o)] else []) t.
Definition table_ok (t : list operation) : Prop := NoDup (import_slots t) /\ Forall (fun p => snd p < 2^32 - 1) (import_slots t).
