(** What the operation lists of the two implementations say to each other. *)
From Coq Require Import List NArith Bool.
From Verif Require Import Base FramesSpec OperationsModel OperationsSpec CustomSpec RustOpsModel.
Import ListNotations.
Open Scope N_scope.

(** The kinds of the Rust list by their number. *)
Definition kind_of (ty : N) : okind := if ty =? 1 then KRequestResponse else if ty =? 2 then KRequestFnF else if ty =? 3 then KRequestStream else KRequestChannel.

(** A Go entry as the Rust list holds it. *)
Definition rust_op (o : operation) : rop := mkRop (op_index o) (kind_of (op_type o)) (op_ns o) (op_name o).

(** What Rust makes of a Go table: the exports and everything else, each in the order of the table. *)
Definition rust_list (t : list operation) : roplist :=
  mkRopList (map rust_op (filter (fun o => negb (op_dir o =? 1)) t)) (map rust_op (filter (fun o => op_dir o =? 1) t)).

(** What Go makes of a Rust list: the exports, then the imports. *)
Definition go_op (dir : N) (o : rop) : operation := mkOp (ro_index o) (kind_into (ro_kind o)) dir (ro_ns o) (ro_name o).
Definition go_table (l : roplist) : list operation := map (go_op 1) (ro_exports l) ++ map (go_op 2) (ro_imports l).

(** A Go entry Rust accepts. *)
Definition rust_accepts (o : operation) : Prop := 1 <= op_type o <= 4 /\ utf8 (op_ns o) /\ utf8 (op_name o).

(** [body] holds the entries [t] one after the other, each with two more bytes behind it, whatever they announce. *)
Inductive rust_holds : list operation -> bytes -> Prop :=
| rust_holds_nil : forall rest, rust_holds [] rest
| rust_holds_cons : forall o t r rest, op_in_range o -> names_fit o -> rust_accepts o -> r < 65536 -> rust_holds t rest ->
    rust_holds (o :: t) (entry_bytes o ++ bytes2 r ++ rest).

Definition rop_in_range (o : rop) : Prop := ro_index o < 2^32 /\ wf (ro_ns o) /\ wf (ro_name o) /\ len (ro_ns o) <= 65535 /\ len (ro_name o) <= 65535.
(** The strings of a Rust list are UTF-8 (they are [String]s). *)
Definition rop_text (o : rop) : Prop := utf8 (ro_ns o) /\ utf8 (ro_name o).
Definition all_ops (P : rop -> Prop) (l : roplist) : Prop := Forall P (ro_exports l) /\ Forall P (ro_imports l).
