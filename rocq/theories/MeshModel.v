(** Model of the linking of go/transport/wasmrs/mesh/mesh.go.  Code only; no proofs.

    Modelled: the table of exports, the list of unsatisfied imports, linkOperations (176-235), linkOperation (237-261), the
    lookup of the four request methods (62-120) and what a destination does to the metadata (263-293).  Not modelled:
    compiling and instantiating modules (each load is an instance with its operation table), closing of replaced instances,
    printing.  Instances are numbered in the order of their loads; loading a file again makes a new instance. *)
From Coq Require Import List NArith Bool.
From Verif Require Import Base OperationsModel InvokeModel.
Import ListNotations.
Open Scope N_scope.

(** mesh.go:29-32. *)
Record destination := mkDest { d_inst : nat; d_index : N }.

(** mesh.go:21-27: m_exports is the two-level map flattened, newest entry first; m_tabs are the linked handlers of the instances
    (host/instance.go), where a handler is the destination whose method it is. *)
Record mesh := mkMesh {
  m_exports : list (info * destination);
  m_unsatisfied : list (nat * operation);
  m_tabs : nat -> ikind -> list (option destination) }.
(** mesh.go:48-60 New. *)
Definition new_mesh : mesh := mkMesh [] [] (fun _ _ => []).

Definition op_info (o : operation) : info := (op_ns o, op_name o).

(** mesh.go:238-247: both map lookups and the load of the pointer; also 63-72 and alike. *)
Fixpoint find_export (l : list (info * destination)) (x : info) : option destination :=
  match l with
  | [] => None
  | (y, d) :: l' => if info_eq y x then Some d else find_export l' x
  end.

Definition kind_of (ty : N) : option ikind :=
  if ty =? 1 then Some RR else if ty =? 2 then Some FNF else if ty =? 3 then Some RS else if ty =? 4 then Some RC else None.
Definition ikind_same (a b : ikind) : bool := match a, b with RR, RR | FNF, FNF | RS, RS | RC, RC => true | _, _ => false end.

(** mesh.go:237-261 linkOperation. *)
Definition linkOperation (m : mesh) (inst : nat) (op : operation) : outcome no_err (mesh * bool) :=
  match find_export (m_exports m) (op_info op) with
  | None => Ret (m, false)
  | Some dest =>
    match kind_of (op_type op) with
    | None => Ret (m, true)
    | Some k =>
      do l <- set_handler (m_tabs m inst k) (op_index op) (Some dest) ;
      Ret (mkMesh (m_exports m) (m_unsatisfied m)
             (fun i k' => if Nat.eqb i inst && ikind_same k' k then l else m_tabs m i k'), true)
    end
  end.

(** mesh.go:186-219: the loop over the operations; [n] is numExported. *)
Fixpoint link_each (m : mesh) (inst : nat) (opers : list operation) (n : N) : outcome no_err (mesh * N) :=
  match opers with
  | [] => Ret (m, n)
  | op :: opers' =>
    if op_dir op =? ExportDir then
      link_each (mkMesh ((op_info op, mkDest inst (op_index op)) :: m_exports m) (m_unsatisfied m) (m_tabs m)) inst opers' (n + 1)
    else if op_dir op =? ImportDir then
      do (m1, ok) <- linkOperation m inst op ;
      link_each (if ok then m1 else mkMesh (m_exports m1) (m_unsatisfied m1 ++ [(inst, op)]) (m_tabs m1)) inst opers' n
    else link_each m inst opers' n
  end.

(** mesh.go:222-228: the loop over the unsatisfied imports; returns those kept. *)
Fixpoint retry (m : mesh) (us : list (nat * operation)) : outcome no_err (mesh * list (nat * operation)) :=
  match us with
  | [] => Ret (m, [])
  | (inst, op) :: us' =>
    do (m1, ok) <- linkOperation m inst op ;
    do (m2, kept) <- retry m1 us' ;
    Ret (m2, if ok then kept else (inst, op) :: kept)
  end.

(** mesh.go:176-235 linkOperations. *)
Definition linkOperations (m : mesh) (inst : nat) (opers : list operation) : outcome no_err mesh :=
  do (m1, n) <- link_each m inst opers 0 ;
  if (0 <? n) && (0 <? len (m_unsatisfied m1)) then
    do (m2, kept) <- retry m1 (m_unsatisfied m1) ;
    Ret (mkMesh (m_exports m2) kept (m_tabs m2))
  else Ret m1.

(** mesh.go:128-136 LoadModules: the operation tables of the modules, in the order of loading. *)
Fixpoint load_from (m : mesh) (inst : nat) (loads : list (list operation)) : outcome no_err mesh :=
  match loads with
  | [] => Ret m
  | t :: loads' => do m1 <- linkOperations m inst t ; load_from m1 (S inst) loads'
  end.
Definition load_all (loads : list (list operation)) : outcome no_err mesh := load_from new_mesh 0 loads.

(** What an instance's linked handler for an index is (host/instance.go:620-625 and alike). *)
Definition linked (m : mesh) (inst : nat) (k : ikind) (index : N) : outcome no_err (option destination) :=
  linked_handler (m_tabs m inst k) index.

(** mesh.go:62-120: the destination a request through the mesh goes to. *)
Definition mesh_request (m : mesh) (x : info) : option destination := find_export (m_exports m) x.

(** mesh.go:263-293: the metadata sent on to the destination; [None] is nil metadata. *)
Definition redirect (d : destination) (md : option bytes) : outcome no_err (option bytes) :=
  match md with
  | None => Ret None
  | Some b => do b' <- put_at b 0 (be 4 (d_index d)) ; Ret (Some b')
  end.
