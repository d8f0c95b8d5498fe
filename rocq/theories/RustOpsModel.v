(** Model of rust/crates/wasmrs/src/operations.rs: the operation list of the Rust implementation. Line numbers refer to that file unless another
    file is named. Simplifications: strings are their bytes; [String::from_utf8] accepts what [CustomModel.utf8_valid] accepts. *)
From Coq Require Import List NArith Bool.
From Verif Require Import Base CustomModel OperationsModel RustFramesModel.
Import ListNotations.
Open Scope N_scope.

(** operations.rs:41-50 OperationType. *)
Inductive okind := KRequestResponse | KRequestFnF | KRequestStream | KRequestChannel.

(** operations.rs:52-62 From<u8>: [unreachable!] panics. *)
Definition kind_from {E} (v : N) : outcome E okind :=
  match v with 1 => Ret KRequestResponse | 2 => Ret KRequestFnF | 3 => Ret KRequestStream | 4 => Ret KRequestChannel | _ => Panic end.

(** operations.rs:64-73 From<OperationType> for u8. *)
Definition kind_into (k : okind) : N := match k with KRequestResponse => 1 | KRequestFnF => 2 | KRequestStream => 3 | KRequestChannel => 4 end.

(** operations.rs:76-80 Error. *)
Inductive rops_error := RMagic | RVersion | RUtf8String.

(** operations.rs:100-105 Operation. *)
Record rop := mkRop { ro_index : N; ro_kind : okind; ro_ns : bytes; ro_name : bytes }.
(** operations.rs:109-112 OperationList. *)
Record roplist := mkRopList { ro_imports : list rop; ro_exports : list rop }.

(** operations.rs:127-132 get_op. *)
Definition get_op (l : list rop) (ns name : bytes) : option N :=
  match find (fun o => bytes_equal (ro_ns o) ns && bytes_equal (ro_name o) name) l with Some o => Some (ro_index o) | None => None end.
(** operations.rs:117-119 get_import and 123-125 get_export. *)
Definition get_import (l : roplist) := get_op (ro_imports l).
Definition get_export (l : roplist) := get_op (ro_exports l).

(** operations.rs:135-169 add_export, add_import. *)
Definition add_export (l : roplist) (index : N) (k : okind) (ns name : bytes) : roplist := mkRopList (ro_imports l) (ro_exports l ++ [mkRop index k ns name]).
Definition add_import (l : roplist) (index : N) (k : okind) (ns name : bytes) : roplist := mkRopList (ro_imports l ++ [mkRop index k ns name]) (ro_exports l).

(** operations.rs:189-202 encode_op. *)
Definition encode_op (o : rop) (dir : N) : bytes :=
  [kind_into (ro_kind o)] ++ [dir] ++ be 4 (ro_index o)
  ++ be 2 (u16 (len (ro_ns o))) ++ ro_ns o ++ be 2 (u16 (len (ro_name o))) ++ ro_name o ++ be 2 0.

(** operations.rs:37 WASMRS_MAGIC. *)
Definition WASMRS_MAGIC : bytes := [0x00; 0x77; 0x72; 0x73].

(** operations.rs:173-187 encode. *)
Definition rops_encode (l : roplist) : bytes :=
  WASMRS_MAGIC ++ be 2 1 ++ be 4 (u32 (len (ro_imports l) + len (ro_exports l)))
  ++ concat (map (fun o => encode_op o 1) (ro_exports l)) ++ concat (map (fun o => encode_op o 2) (ro_imports l)).

(** [buf.split_to(1)[0]]. *)
Definition one {E} (buf : bytes) : outcome E (N * bytes) := match buf with b :: rest => Ret (b, rest) | [] => Panic end.

(** [from_uXX_bytes(&buf.split_to(w))]. *)
Definition num {E} (w : N) (buf : bytes) : outcome E (N * bytes) :=
  do (b, rest) <- split_to buf w ; do n <- from_bytes_n w b ; Ret (n, rest).

(** [String::from_utf8(buf.split_to(n).to_vec())?]. *)
Definition text (n : N) (buf : bytes) : outcome rops_error (bytes * bytes) :=
  do (b, rest) <- split_to buf n ; if utf8_valid b then Ret (b, rest) else Fail RUtf8String.

(** operations.rs:222-242: the body of the loop: the entry, its direction and the rest of the buffer. *)
Definition rread_op (buf : bytes) : outcome rops_error (rop * N * bytes) :=
  do (k, buf) <- one buf ;
  do kind <- kind_from k ;
  do (dir, buf) <- one buf ;
  do (index, buf) <- num 4 buf ;
  do (ns_len, buf) <- num 2 buf ;
  do (ns, buf) <- text ns_len buf ;
  do (op_len, buf) <- num 2 buf ;
  do (name, buf) <- text op_len buf ;
  do (_, buf) <- num 2 buf ;
  Ret (mkRop index kind ns name, dir, buf).

(** operations.rs:221-242: the loop. Every iteration takes at least twelve bytes, so that [fuel], the length of the buffer, is enough: an iteration
    that finds none left would find no bytes and panic. *)
Fixpoint rread_ops (fuel : nat) (n : N) (buf : bytes) (imports exports : list rop) : outcome rops_error roplist :=
  if n =? 0 then Ret (mkRopList imports exports)
  else match fuel with
       | O => Panic
       | S fuel' =>
         do (o, dir, buf) <- rread_op buf ;
         if dir =? 1 then rread_ops fuel' (n - 1) buf imports (exports ++ [o]) else rread_ops fuel' (n - 1) buf (imports ++ [o]) exports
       end.

(** operations.rs:205-244 decode and decode_v1. *)
Definition rops_decode (buf : bytes) : outcome rops_error roplist :=
  do (magic, buf) <- split_to buf 4 ;
  if negb (bytes_equal magic WASMRS_MAGIC) then Fail RMagic
  else
    do (version, buf) <- num 2 buf ;
    if version =? 1 then
      do (num_ops, buf) <- num 4 buf ;
      rread_ops (length buf) num_ops buf [] []
    else Fail RVersion.

(** frames/metadata.rs:13-22 Metadata::encode. *)
Definition metadata_encode (index : N) : bytes := be 4 index ++ [0; 0; 0; 0].
(** frames/mod.rs:299-307 parse_metadata of a payload whose metadata is present: slicing panics when it is shorter than four bytes. *)
Definition parse_metadata {E} (md : bytes) : outcome E N := if 4 <=? len md then Ret (unbe (firstn 4 md)) else Panic.
