(** Model of the scaffolding of services, /repo/codegen/src/tinygo/scaffold_visitor.ts: the packages that the file imports and names, and the types of
    its methods against those of interface_visitor.ts.  Code only; no proofs.

    - Namespaces without functions: for the parameters of a function isValid (352-357) reads the name of an interface that is not there.  No logger is
      configured.  [chosen] is isOneOfType(context, roleTypes) || roleNames.indexOf(iface.name) != -1.
    - Names of types have no import of their own in the configuration (only aliases have).
    - hasServiceCode is imported from another project (deps/codegen/utils.ts): taken to be whether some service has an operation with code.
    - expandType of a stream is taken to be flux.Flux[T] (the pattern that the other visitors set). *)
From Coq Require Import List NArith Bool.
From Verif Require Import Base OperationsModel MsgpackModel GenModel OpGenModel RegGenModel PkgGenModel.
Import ListNotations.
Open Scope N_scope.

(** ** Packages *)

(** The names under which addType keeps imports (260-273): "mono", "flux", "Time", and the names of aliases. *)
Inductive key := KMono | KFlux | KTime | KAlias (a : N).
Definition key_dec (a b : key) : {a = b} + {a <> b}. Proof. decide equality. apply N.eq_dec. Defined.

Section Scaffold.
Context (imported : N -> bool) (path : N -> N) (chosen : interface -> bool).

Definition key_pkg (k : key) : pkg := match k with KMono => PMono | KFlux => PFlux | KTime => PTime | KAlias a => POther (path a) end.
Definition prim_keys (p : pname) : list key := match p with NDatetime => [KTime] | _ => [] end.
(** checkType, 284-349: aliases without an import are not looked into. *)
Fixpoint check_keys (t : ty) : list key :=
  match t with
  | TyPrim p => prim_keys p
  | TyAlias a _ => if imported a then [KAlias a] else []
  | TyList _ u => check_keys u
  | TyMap k _ u => prim_keys k ++ check_keys u
  | TyType _ | TyUnion _ | TyEnum _ => []
  end.
(** visitOperation, checkReturn and visitParameter, 245-258 and 275-282. *)
Definition result_keys (r : result) : list key :=
  match r with RVoid => [KMono] | ROne t => KMono :: check_keys t | RMany None => [KFlux] | RMany (Some t) => KFlux :: check_keys t end.
Definition param_keys (i : input) : list key :=
  match i with
  | Unary t => check_keys t
  | Args _ l => flat_map (fun p => match snd p with One _ t => check_keys t | Many t => KFlux :: check_keys t end) l
  end.
Definition op_keys (x : op) : list key := result_keys (o_out x) ++ param_keys (o_in x).
(** With or without code. *)
Definition found (s : namespace) : list key := flat_map (fun i => if chosen i then flat_map (fun o => op_keys (n_op o)) (f_ops i) else []) (s_interfaces s).
Definition hasServiceCode (s : namespace) : bool := existsb (fun i => isService (f_role i) && existsb (fun o => negb (n_nocode o)) (f_ops i)) (s_interfaces s).
(** The lines of the import section, 58-91 and 210-238; each name once. *)
Definition lines (s : namespace) : list pkg :=
  if existsb chosen (s_interfaces s)
  then (if hasServiceCode s then [PContext] else []) ++ [PErrors] ++ map key_pkg (nodup key_dec (found s))
  else [].

(** visitOperation, 149-204: parameters (with ctx context.Context) and result, and errors.New. *)
Definition method_pkgs (x : op) : list pkg :=
  [PContext]
  ++ match o_in x with
     | Unary t => type_pkgs imported path t
     | Args _ l => flat_map (fun p => match snd p with One _ t => type_pkgs imported path t | Many t => PFlux :: type_pkgs imported path t end) l
     end
  ++ match o_out x with
     | RVoid => [PMono]
     | ROne t => PMono :: type_pkgs imported path t
     | RMany None => [PFlux]
     | RMany (Some t) => PFlux :: type_pkgs imported path t
     end
  ++ [PErrors].
Definition methods (s : namespace) : list op :=
  flat_map (fun i => if chosen i then flat_map (fun o => if n_nocode o then [] else [n_op o]) (f_ops i) else []) (s_interfaces s).
Definition named (s : namespace) : list pkg := flat_map method_pkgs (methods s).
End Scaffold.

(** ** Results *)
Inductive gotype := GoValue (t : ty) | GoVoid | GoMono (g : gotype) | GoFlux (g : gotype).
(** expandType of the type of an operation. *)
Definition expand_result (r : result) : gotype :=
  match r with RVoid => GoVoid | ROne t => GoValue t | RMany None => GoFlux GoVoid | RMany (Some t) => GoFlux (GoValue t) end.
(** interface_visitor.ts:33-48: [t] is the type of the items. *)
Definition interface_result (r : result) : gotype :=
  match r with RVoid => GoMono GoVoid | ROne t => GoMono (GoValue t) | RMany None => GoFlux GoVoid | RMany (Some t) => GoFlux (GoValue t) end.
(** scaffold_visitor.ts:171-183: the type that is written is that of the operation (operation.type, not [t]). *)
Definition scaffold_result (r : result) : gotype :=
  match r with RVoid => GoMono GoVoid | ROne _ => GoMono (expand_result r) | RMany _ => GoFlux (expand_result r) end.
