(** Model of go/invoke/handlers.go and instances.go, of the operation list the guest builds from them
    (go/transport/wasmrs/guest/guest.go:63-103), and of the tables of linked handlers
    (go/transport/wasmrs/host/instance.go:613-667; go/handler/handler.go:593-647 is the same text).  Code only; no proofs.

    Strings are their bytes; [H] stands for the handler functions, [None] for a nil one. *)
From Coq Require Import List NArith Bool.
From Verif Require Import Base OperationsModel.
Import ListNotations.
Open Scope N_scope.

(** handlers.go:18-21 HandlerInfo. *)
Definition info : Type := bytes * bytes.

(** The interaction kinds, go/operations/operatons.go:22-27. *)
Inductive ikind := RR | FNF | RS | RC.

Section Handlers.
Context {H : Type}.

(** handlers.go:35-52: the package variables. *)
Record tables := mkTables {
  rr_handlers : list (option H); rr_info : list info;
  fnf_handlers : list (option H); fnf_info : list info;
  rs_handlers : list (option H); rs_info : list info;
  rc_handlers : list (option H); rc_info : list info;
  rr_imports : list info; fnf_imports : list info; rs_imports : list info; rc_imports : list info }.
Definition no_tables : tables := mkTables [] [] [] [] [] [] [] [] [] [] [] [].

(** handlers.go:71-74, 83-86, 95-98, 107-110. *)
Definition export (k : ikind) (ns op : bytes) (h : option H) (t : tables) : tables :=
  let 'mkTables a1 a2 b1 b2 c1 c2 d1 d2 e1 e2 e3 e4 := t in
  match k with
  | RR => mkTables (a1 ++ [h]) (a2 ++ [(ns, op)]) b1 b2 c1 c2 d1 d2 e1 e2 e3 e4
  | FNF => mkTables a1 a2 (b1 ++ [h]) (b2 ++ [(ns, op)]) c1 c2 d1 d2 e1 e2 e3 e4
  | RS => mkTables a1 a2 b1 b2 (c1 ++ [h]) (c2 ++ [(ns, op)]) d1 d2 e1 e2 e3 e4
  | RC => mkTables a1 a2 b1 b2 c1 c2 (d1 ++ [h]) (d2 ++ [(ns, op)]) e1 e2 e3 e4
  end.

(** handlers.go:76-81, 88-93, 100-105, 112-117; the last [None] would be an index out of range, which cannot happen for
    fewer than 2^32 handlers. *)
Definition get_from (l : list (option H)) (id : N) : outcome no_err (option H) :=
  if u32 (len l) <=? id then Ret None
  else match nth_error l (N.to_nat id) with Some h => Ret h | None => Panic end.
Definition get_handler (k : ikind) (t : tables) (id : N) : outcome no_err (option H) :=
  match k with
  | RR => get_from (rr_handlers t) id
  | FNF => get_from (fnf_handlers t) id
  | RS => get_from (rs_handlers t) id
  | RC => get_from (rc_handlers t) id
  end.

Definition info_eq (a b : info) : bool := bytes_equal (fst a) (fst b) && bytes_equal (snd a) (snd b).

(** handlers.go:119-128, 130-139, 141-150, 152-161: the loop, then the append. *)
Fixpoint find_import (l : list info) (x : info) (i : N) : option N :=
  match l with
  | [] => None
  | y :: l' => if info_eq y x then Some (u32 i) else find_import l' x (i + 1)
  end.
Definition import_in (l : list info) (x : info) : N * list info :=
  match find_import l x 0 with
  | Some i => (i, l)
  | None => (u32 (len l), l ++ [x])
  end.
Definition import (k : ikind) (ns op : bytes) (t : tables) : N * tables :=
  let 'mkTables a1 a2 b1 b2 c1 c2 d1 d2 e1 e2 e3 e4 := t in
  match k with
  | RR => let (i, l) := import_in e1 (ns, op) in (i, mkTables a1 a2 b1 b2 c1 c2 d1 d2 l e2 e3 e4)
  | FNF => let (i, l) := import_in e2 (ns, op) in (i, mkTables a1 a2 b1 b2 c1 c2 d1 d2 e1 l e3 e4)
  | RS => let (i, l) := import_in e3 (ns, op) in (i, mkTables a1 a2 b1 b2 c1 c2 d1 d2 e1 e2 l e4)
  | RC => let (i, l) := import_in e4 (ns, op) in (i, mkTables a1 a2 b1 b2 c1 c2 d1 d2 e1 e2 e3 l)
  end.

(** A history of registrations, as an application's init functions make them. *)
Inductive icall := IExport (k : ikind) (ns op : bytes) (h : option H) | IImport (k : ikind) (ns op : bytes).
Definition istep (t : tables) (c : icall) : tables :=
  match c with
  | IExport k ns op h => export k ns op h t
  | IImport k ns op => snd (import k ns op t)
  end.
Definition irun (h : list icall) : tables := fold_left istep h no_tables.

(** guest.go:91-103 convertOperations; go/operations/operatons.go:22-27 and 46-49 number types and directions. *)
Fixpoint convert_from (i : N) (l : list info) (ty dir : N) : list operation :=
  match l with
  | [] => []
  | (ns, op) :: l' => mkOp (u32 i) ty dir ns op :: convert_from (i + 1) l' ty dir
  end.
Definition convertOperations := convert_from 0.
Definition type_no (k : ikind) : N := match k with RR => 1 | FNF => 2 | RS => 3 | RC => 4 end.
Definition ExportDir : N := 1.
Definition ImportDir : N := 2.

(** guest.go:63-89 OperationList, with GetOperations (handlers.go:54-69). *)
Definition operation_list (t : tables) : list operation :=
  convertOperations (rr_info t) 1 ExportDir ++
  convertOperations (fnf_info t) 2 ExportDir ++
  convertOperations (rs_info t) 3 ExportDir ++
  convertOperations (rc_info t) 4 ExportDir ++
  convertOperations (rr_imports t) 1 ImportDir ++
  convertOperations (fnf_imports t) 2 ImportDir ++
  convertOperations (rs_imports t) 3 ImportDir ++
  convertOperations (rc_imports t) 4 ImportDir.
Definition OperationList (t : tables) : outcome no_err bytes := ToBytes (operation_list t).

(** ** Linked handlers: host/instance.go:613-618 and alike.  The loop appends nil until the slice has index+1 (uint32)
    entries; the assignment panics when the index is still out of range. *)
Definition set_handler (l : list (option H)) (index : N) (h : option H) : outcome no_err (list (option H)) :=
  let want := u32 (index + 1) in
  let l1 := if u32 (len l) <? want then l ++ repeat None (N.to_nat (want - u32 (len l))) else l in
  if index <? len l1 then Ret (firstn (N.to_nat index) l1 ++ h :: skipn (N.to_nat (index + 1)) l1) else Panic.
(** host/instance.go:620-625. *)
Definition linked_handler (l : list (option H)) (index : N) : outcome no_err (option H) := get_from l index.
End Handlers.
Arguments tables : clear implicits.
Arguments icall : clear implicits.

(** ** go/invoke/instances.go *)
Section Instances.
Context {T : Type}.
(** Bits of a uintptr: 64, or 32 on wasm. *)
Context (w : N).

(** instances.go:15-18 LiveInstances: the keys of the map, and what is stored at the addresses handed out. *)
Record live := mkLive { l_keys : list N; l_mem : N -> option T }.
Definition new_live : live := mkLive [] (fun _ => None).

(** The address [a] of the new Ptr is chosen by the allocator. *)
Inductive lcall := LPut (inst : T) (a : N) | LGet (id : N) | LRemove (id : N).
Definition has (k : N) (s : live) : bool := existsb (N.eqb k) (l_keys s).

(** instances.go:26-55: new state, and the handle returned or the instance found. *)
Definition lstep (s : live) (c : lcall) : live * (N + option T) :=
  match c with
  | LPut inst a => (mkLive (if has a s then l_keys s else a :: l_keys s) (fun x => if x =? a then Some inst else l_mem s x), inl a)
  | LGet id => let p := id mod 2 ^ w in (s, inr (if has p s then l_mem s p else None))
  | LRemove id =>
    let p := id mod 2 ^ w in
    if has p s then (mkLive (filter (fun x => negb (x =? p)) (l_keys s)) (l_mem s), inr (l_mem s p)) else (s, inr None)
  end.
Definition lrun (h : list lcall) : live := fold_left (fun s c => fst (lstep s c)) h new_live.
End Instances.
Arguments lcall : clear implicits.
Arguments live : clear implicits.
