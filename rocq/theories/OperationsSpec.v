(** The operation list format (docs: "Operation list"), written as a layout of bytes. *)
From Coq Require Import List NArith Bool.
From Verif Require Import Base FramesSpec OperationsModel.
Import ListNotations.
Open Scope N_scope.

(** Fields in the range of their Go type. *)
Definition op_in_range (o : operation) : Prop :=
  op_index o < 2^32 /\ op_type o < 256 /\ op_dir o < 256 /\ wf (op_ns o) /\ wf (op_name o).

(** Names short enough for their 16-bit length field. *)
Definition names_fit (o : operation) : Prop := len (op_ns o) <= 65535 /\ len (op_name o) <= 65535.

(** Bytes of one entry up to, and without, its reserved field. *)
Definition entry_bytes (o : operation) : bytes :=
  [op_type o; op_dir o] ++ bytes4 (op_index o)
  ++ bytes2 (len (op_ns o)) ++ op_ns o
  ++ bytes2 (len (op_name o)) ++ op_name o.

(** Preamble for [n] entries: "\0wrs", version 1, count. *)
Definition preamble (n : N) : bytes := [0; 119; 114; 115] ++ bytes2 1 ++ bytes4 n.

(** The table with empty reserved fields. *)
Definition table_bytes (t : list operation) : bytes :=
  preamble (len t) ++ concat (map (fun o => entry_bytes o ++ bytes2 0) t).

(** The table with arbitrary reserved fields. *)
Definition table_bytes_with (t : list (operation * bytes)) : bytes :=
  preamble (len t) ++ concat (map (fun '(o, r) => entry_bytes o ++ bytes2 (len r) ++ r) t).

(** Total size in bytes. *)
Definition table_size (t : list operation) : N :=
  fold_right (fun o n => 12 + len (op_ns o) + len (op_name o) + n) 10 t.

(** [body] holds the entries [t] one after the other, in order and without overlap, each followed by a gap
    of the length its reserved field announces: a field [r] announces [2 + r] bytes including itself,
    counted modulo 2^16. Anything may follow the last gap. *)
Inductive holds_entries : list operation -> bytes -> Prop :=
| holds_nil : forall rest, holds_entries [] rest
| holds_cons : forall o t r gap rest after,
    op_in_range o -> names_fit o -> r < 65536 ->
    gap ++ rest = bytes2 r ++ after ->
    len gap = (2 + r) mod 65536 ->
    holds_entries t rest ->
    holds_entries (o :: t) (entry_bytes o ++ gap ++ rest).

(** An entry with its names cut to their length modulo 65536. *)
Definition cut_name (b : bytes) : bytes := firstn (N.to_nat (len b mod 65536)) b.
Definition cut (o : operation) : operation := mkOp (op_index o) (op_type o) (op_dir o) (cut_name (op_ns o)) (cut_name (op_name o)).
