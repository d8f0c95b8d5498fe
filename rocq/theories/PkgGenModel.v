(** Model of the Go packages that generated files import and name: ExportVisitor and its ImportsVisitor (/repo/codegen/src/tinygo/export_visitor.ts),
    ProviderVisitor, ImportVisitor, ImportBaseVisitor and its ImportsVisitor (import_visitor.ts), and the packages in the code that wrappers_visitor.ts,
    register_visitor.ts and invokers_visitor.ts write.  Code only; no proofs.

    - Namespaces and operations as in RegGenModel and OpGenModel, with their simplifications; noCode of an absent operation (for interfaces) is taken to
      be false.  A unary operation whose parameter is a stream is taken to be visited as one with that parameter in a list, so that its type is checked.
    - The import of an alias is a number, different from the packages that have a name here.
    - Names of operations, fields and types do not matter to packages and are left out. *)
From Coq Require Import List NArith Bool.
From Verif Require Import Base OperationsModel MsgpackModel GenModel OpGenModel RegGenModel.
Import ListNotations.
Open Scope N_scope.

Inductive pkg := PContext | PBinary | PTime | PInvoke | PPayload | PProxy | PMono | PFlux | PTransform | PMsgpack | PErrors | POther (n : N).
Definition rx_pkg (r : rxpkg) : pkg := match r with Mono => PMono | Flux => PFlux end.

Section Files.
(** context.config.aliases: whether an alias has an import, and which. *)
Context (imported : N -> bool) (path : N -> N).

(** The packages in a Go type that expandType writes, with translateAlias. *)
Definition prim_pkgs (p : pname) : list pkg := match p with NDatetime => [PTime] | _ => [] end.
Fixpoint type_pkgs (t : ty) : list pkg :=
  match t with
  | TyPrim p => prim_pkgs p
  | TyAlias a _ => if imported a then [POther (path a)] else []
  | TyList _ u => type_pkgs u
  | TyMap k _ u => prim_pkgs k ++ type_pkgs u
  | TyType _ | TyUnion _ | TyEnum _ => []
  end.

(** ** export.go *)

(** ImportsVisitor.visitCheckType, export_visitor.ts:93-130 (there is no case for primitive types). *)
Fixpoint export_check (t : ty) : list pkg :=
  match t with
  | TyAlias a _ => if imported a then [POther (path a)] else []
  | TyList _ u => export_check u
  | TyMap _ _ u => export_check u
  | TyPrim _ | TyType _ | TyUnion _ | TyEnum _ => []
  end.
(** visitFunction and the end of visitOperation, 64-81. *)
Definition export_result (r : result) : list pkg :=
  match r with
  | RVoid => [PMono]
  | ROne t => PMono :: export_check t
  | RMany None => [PFlux]
  | RMany (Some t) => PFlux :: export_check t
  end.
(** visitParameter, 83-91: of unary operations only. *)
Definition export_param (i : input) : list pkg := match i with Unary t => export_check t | Args _ _ => [] end.
(** visitFunction is for all functions, visitOperation for handlers; parameters are those of handlers. *)
Definition export_visited (r : role) (func : bool) (x : op) : list pkg :=
  (if func || isHandler r then export_result (o_out x) else []) ++ (if isHandler r then export_param (o_in x) else []).
Definition export_found (s : namespace) : list pkg :=
  flat_map (fun f => export_visited (fst f) true (n_op (snd f))) (s_functions s)
  ++ flat_map (fun i => flat_map (fun o => export_visited (f_role i) false (n_op o)) (f_ops i)) (s_interfaces s).
(** ExportVisitor.visitNamespace, 34-52. *)
Definition export_imports (s : namespace) : list pkg := [PContext; PInvoke; PPayload] ++ export_found s ++ [PTransform].

(** doHandler, wrappers_visitor.ts:94-330. *)
Definition wrapper_pkgs (x : op) : list pkg :=
  let rxPackage := rx_pkg (returnPackage (o_out x)) in
  (* 172-184: invoke.XHandler, func(ctx context.Context, p payload.Payload[, in flux.Flux[payload.Payload]]) rxWrapper[payload.Payload] *)
  [PInvoke; PContext; PPayload; rx_pkg (wire x)]
  (* 123-170 *)
  ++ match streamIn (o_in x) with
     | Some t => [PFlux; PTransform] ++ match t with TyList _ _ | TyMap _ _ _ => type_pkgs t | _ => [] end
     | None => []
     end
  (* 185-271 *)
  ++ match o_in x with
     | Unary (TyEnum _) | Unary (TyType _) | Unary (TyUnion _) => [PTransform; rxPackage]
     | Unary (TyAlias a p) => [PTransform; rxPackage] ++ type_pkgs (TyAlias a p)
     | Unary (TyPrim _) | Unary (TyList _ _) | Unary (TyMap _ _ _) => [PMsgpack; rxPackage]
     | Args _ l => match plain_params l with [] => [] | _ => [PTransform; rxPackage] end
     end
  (* 272-324 *)
  ++ match o_out x with
     | RVoid | RMany None => [PMono; PTransform]
     | ROne t | RMany (Some t) =>
       match t with
       | TyPrim _ | TyAlias _ _ | TyEnum _ | TyType _ | TyUnion _ => [rxPackage; PTransform]
       | TyList _ u => [PMono; PTransform] ++ type_pkgs u
       | TyMap _ _ _ => []
       end
     end.
(** visitOperation and visitFunction, 53-66: what a wrapper is written for.  The calls of invoke.ExportX (68-92, and RegisterVisitor) are for the same. *)
Definition wrapped (s : namespace) : list op :=
  flat_map (fun f => if isProvider (fst f) then [] else [n_op (snd f)]) (s_functions s)
  ++ flat_map (fun i => flat_map (fun o => if negb (isHandler (f_role i)) || n_nocode o then [] else [n_op o]) (f_ops i)) (s_interfaces s).
Definition export_used (s : namespace) : list pkg := flat_map wrapper_pkgs (wrapped s).

(** ** providers.go *)

(** ImportsVisitor.visitCheckType, import_visitor.ts:281-326: also the types of aliases that are not imported. *)
Fixpoint provider_check (t : ty) : list pkg :=
  match t with
  | TyPrim p => prim_pkgs p
  | TyAlias a p => if imported a then [POther (path a)] else prim_pkgs p
  | TyList _ u => provider_check u
  | TyMap k _ u => prim_pkgs k ++ provider_check u
  | TyType _ | TyUnion _ | TyEnum _ => []
  end.
(** visitOperation and visitParameter, 260-279: parameters of operations that are not unary. *)
Definition provider_result (r : result) : list pkg :=
  match r with
  | RVoid => [PMono]
  | ROne t => PMono :: provider_check t
  | RMany None => [PFlux]
  | RMany (Some t) => PFlux :: provider_check t
  end.
Definition provider_params (i : input) : list pkg :=
  match i with
  | Unary _ => []
  | Args _ l => flat_map (fun p => match snd p with One _ t => provider_check t | Many t => PFlux :: provider_check t end) l
  end.
Definition provider_visited (x : op) : list pkg := provider_result (o_out x) ++ provider_params (o_in x).
(** The filter of ProviderVisitor, 173-175. *)
Definition filtered (r : role) (nocode : bool) : bool := negb (isProvider r) || nocode.
Definition visited (s : namespace) : list op :=
  flat_map (fun f => if filtered (fst f) (n_nocode (snd f)) then [] else [n_op (snd f)]) (s_functions s)
  ++ flat_map (fun i => flat_map (fun o => if filtered (f_role i) (n_nocode o) then [] else [n_op o]) (f_ops i)) (s_interfaces s).
(** hasAny of ProviderVisitor, 150-172. *)
Definition hasAny (s : namespace) : bool :=
  existsb (fun i => isProvider (f_role i) && negb (existsb n_nocode (f_ops i))) (s_interfaces s)
  || existsb (fun f => isProvider (fst f)) (s_functions s).
(** visitNamespace, 58-121. *)
Definition provider_imports (s : namespace) : list pkg :=
  if hasAny s
  then [PContext; PBinary; PInvoke; PPayload; PProxy] ++ flat_map provider_visited (visited s) ++ [PTransform; PMsgpack]
  else [PInvoke].

(** invokers_visitor.ts:45-276. *)
Definition invoker_pkgs (x : op) : list pkg :=
  let returnPackage' := rx_pkg (returnPackage (o_out x)) in
  (* 81-104: the function's parameters and result *)
  [PContext]
  ++ match o_in x with
     | Unary t => type_pkgs t
     | Args _ l => flat_map (fun p => match snd p with One _ t => type_pkgs t | Many t => PFlux :: type_pkgs t end) l
     end
  ++ match o_out x with RVoid => [PMono] | ROne t => PMono :: type_pkgs t | RMany None => [PFlux] | RMany (Some t) => PFlux :: type_pkgs t end
  (* 114-180 *)
  ++ match o_in x with
     | Unary (TyEnum _ | TyType _ | TyUnion _ | TyPrim _) => [PMsgpack; returnPackage']
     | Unary (TyAlias _ _ | TyList _ _ | TyMap _ _ _) => []
     | Args _ l => match plain_params l with [] => [] | _ => [PMsgpack; returnPackage'] end
     end
  (* 181-192 *)
  ++ [PProxy; PBinary; PPayload]
  (* 193-233 *)
  ++ match streamIn (o_in x) with Some _ => [PFlux; PTransform] | None => [] end
  (* 234-275 *)
  ++ match o_out x with
     | RVoid | RMany None => [PMono; PTransform]
     | ROne t | RMany (Some t) => [returnPackage'; PTransform] ++ match t with TyList _ u => type_pkgs u | TyMap _ _ _ => type_pkgs t | _ => [] end
     end.
(** visitFunction and visitInterface, import_visitor.ts:123-143: the invokers of all operations of an interface that is not filtered. *)
Definition invoked (s : namespace) : list op :=
  flat_map (fun f => if filtered (fst f) (n_nocode (snd f)) then [] else [n_op (snd f)]) (s_functions s)
  ++ flat_map (fun i => if filtered (f_role i) false then [] else map n_op (f_ops i)) (s_interfaces s).
(** gCaller invoke.Caller is always written. *)
Definition provider_used (s : namespace) : list pkg := PInvoke :: flat_map invoker_pkgs (invoked s).

(** ** The file of ImportVisitor (clients of services) *)

(** hasAny, import_visitor.ts:184-199. *)
Definition client_hasAny (s : namespace) : bool :=
  existsb (fun i => isService (f_role i)) (s_interfaces s) || existsb (fun f => isService (fst f)) (s_functions s).
(** The filter, 200-202: not handlers; with or without code. *)
Definition client_filtered (r : role) : bool := negb (isHandler r).
Definition client_ops (s : namespace) : list op :=
  flat_map (fun f => if client_filtered (fst f) then [] else [n_op (snd f)]) (s_functions s)
  ++ flat_map (fun i => if client_filtered (f_role i) then [] else map n_op (f_ops i)) (s_interfaces s).
Definition client_imports (s : namespace) : list pkg :=
  if client_hasAny s
  then [PContext; PBinary; PInvoke; PPayload; PProxy] ++ flat_map provider_visited (client_ops s) ++ [PTransform; PMsgpack]
  else [PInvoke].
Definition client_used (s : namespace) : list pkg := PInvoke :: flat_map invoker_pkgs (client_ops s).

(** The variables _opX: declared for the functions that are provided, whatever the visitor (100-115), after the return for files without anything (70-86);
    named by the invokers of functions (invokers_visitor.ts:181-183). *)
Definition op_vars (any : bool) (s : namespace) : list bytes := if any then flat_map (fun f => if isProvider (fst f) then [n_name (snd f)] else []) (s_functions s) else [].
Definition provider_refs (s : namespace) : list bytes := flat_map (fun f => if filtered (fst f) (n_nocode (snd f)) then [] else [n_name (snd f)]) (s_functions s).
Definition client_refs (s : namespace) : list bytes := flat_map (fun f => if client_filtered (fst f) then [] else [n_name (snd f)]) (s_functions s).
End Files.
