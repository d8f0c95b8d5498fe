(** Model of the parts of the code generator that write a module's registrations: /repo/codegen/src/tinygo/main_visitor.ts, register_visitor.ts,
    import_visitor.ts, with getOperationParts (utilities.ts) and the styles that invokers_visitor.ts and wrappers_visitor.ts write.
    Code only; no proofs.

    - An Apex namespace has functions and interfaces, with annotations.  isHandler, isService, isProvider and noCode are imported from another project
      (deps/codegen/utils.ts): handlers are taken to be what is annotated as a service or as events, providers what is annotated so, and noCode the
      operations annotated "nocode".  So is InterfaceUsesVisitor: the dependencies are the names in the services' "uses", each once, in order.
    - A module generated from a namespace is taken to be the package with the files of MainVisitor, ExportVisitor and ProviderVisitor, with the user's
      services (NewX of a service registers nothing itself).  Its registrations are those of the initialisation of the package (the functions that are
      imported, in order) and of main.  A name in "uses" that is no provider would not compile; nothing is written for it here.
    - methodName (the Go name of an operation) is left out: the field opX of the provider is taken to be the operation's own. *)
From Coq Require Import List NArith Bool.
From Verif Require Import Base OperationsModel InvokeModel MsgpackModel GenModel OpGenModel.
Import ListNotations.
Open Scope N_scope.

Record operation := mkOperation { n_name : bytes; n_nocode : bool; n_op : op }.
Inductive role := Service | Events | Provider | NoRole.
Record interface := mkInterface { f_name : bytes; f_role : role; f_uses : list bytes; f_ops : list operation }.
Record namespace := mkNamespace { s_name : bytes; s_functions : list (role * operation); s_interfaces : list interface }.

Definition isService (r : role) : bool := match r with Service => true | _ => false end.
Definition isHandler (r : role) : bool := match r with Service | Events => true | _ => false end.
Definition isProvider (r : role) : bool := match r with Provider => true | _ => false end.

(** ** Styles *)
Definition is_stream (r : result) : bool := match r with RMany _ => true | _ => false end.
(** getOperationParts, utilities.ts:40-63: the type in gCaller.X (invokers_visitor.ts:230-232) and in invoke.ImportX. *)
Definition parts_type (x : op) : ikind :=
  let streamIn := streamIn (o_in x) in
  let rxType := RR in
  if (match streamIn with Some _ => true | None => false end) || is_stream (o_out x) then (if streamIn then RC else RS) else rxType.
(** register_visitor.ts:52-59: the style in invoke.ExportX. *)
Definition register_style (x : op) : ikind :=
  match streams (o_in x), is_stream (o_out x) with
  | [], false => RR
  | s, _ => match s with [] => RS | _ => RC end
  end.
(** wrappers_visitor.ts:101-122: the style in invoke.XHandler. *)
Definition wrapper_style (x : op) : ikind :=
  match streamIn (o_in x) with Some _ => RC | None => if is_stream (o_out x) then RS else RR end.

(** ** Registrations *)
Section Registrations.
Context {G : Type}.
(** The wrapper of the user's method for an operation of an interface. *)
Context (impl : bytes -> bytes -> G).

(** "${ns.name}.${iface.name}". *)
Definition qualified (ns iface : bytes) : bytes := ns ++ 46 :: iface.
(** RegisterVisitor, register_visitor.ts:31-72: func RegisterX. *)
Definition Register (ns : bytes) (i : interface) : list (icall G) :=
  if isHandler (f_role i)
  then flat_map (fun o => if n_nocode o then [] else [IExport (register_style (n_op o)) (qualified ns (f_name i)) (n_name o) (Some (impl (f_name i) (n_name o)))]) (f_ops i)
  else [].
(** ProviderNewVisitor, import_visitor.ts:223-246: func NewX of a provider. *)
Definition NewProvider (ns : bytes) (i : interface) : list (icall G) :=
  map (fun o => IImport (parts_type (n_op o)) (qualified ns (f_name i)) (n_name o)) (f_ops i).
(** The variables of the package, import_visitor.ts:100-114. *)
Definition imported_funcs (s : namespace) : list (icall G) :=
  flat_map (fun f => if isProvider (fst f) then [IImport (parts_type (n_op (snd f))) (s_name s) (n_name (snd f))] else []) (s_functions s).

Fixpoint named (l : list bytes) (seen : list bytes) : list bytes :=
  match l with [] => [] | n :: l' => if existsb (fun m => if list_eq_dec N.eq_dec m n then true else false) seen then named l' seen else n :: named l' (n :: seen) end.
Definition dependencies (s : namespace) : list bytes := named (flat_map (fun i => if isService (f_role i) then f_uses i else []) (s_interfaces s)) [].
(** func main, main_visitor.ts:48-103: "Create providers", "Register services". *)
Definition main (s : namespace) : list (icall G) :=
  flat_map (fun d => flat_map (fun i => if isProvider (f_role i) && (if list_eq_dec N.eq_dec (f_name i) d then true else false) then NewProvider (s_name s) i else []) (s_interfaces s)) (dependencies s)
  ++ flat_map (fun i => if isService (f_role i) then Register (s_name s) i else []) (s_interfaces s).
Definition registrations (s : namespace) : list (icall G) := imported_funcs s ++ main s.
End Registrations.
