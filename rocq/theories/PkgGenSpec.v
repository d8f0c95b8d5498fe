(** Which generated files import what they name, said without the generator. *)
From Coq Require Import List NArith Bool.
From Verif Require Import Base OperationsModel MsgpackModel GenModel OpGenModel RegGenModel PkgGenModel.
Import ListNotations.
Open Scope N_scope.

(** Go's rule: a file names the packages that it imports, all of them and no others. *)
Definition agree (imports used : list pkg) : Prop := forall p, In p imports <-> In p used.

(** The types that a type is made of. *)
Inductive within : ty -> ty -> Prop :=
| w_self t : within t t
| w_item t o u : within t u -> within t (TyList o u)
| w_key k o u : within (TyPrim k) (TyMap k o u)
| w_value t k o u : within t u -> within t (TyMap k o u).
(** The type of a parameter, of the items of a stream, or of the result. *)
Definition has_type (x : op) (t : ty) : Prop :=
  match o_in x with Unary u => t = u | Args _ l => exists n, (exists o, In (n, One o t) l) \/ In (n, Many t) l end
  \/ o_out x = ROne t \/ o_out x = RMany (Some t).
Definition mentions (x : op) (u : ty) : Prop := exists t, has_type x t /\ within u t.
Definition streams_out (x : op) : Prop := exists t, o_out x = RMany t.
Definition streams_in (x : op) : Prop := exists n l m t, o_in x = Args n l /\ In (m, Many t) l.

(** An operation is about a package: by whether it is one answer or a stream, by datetimes, by aliases of types of that package. *)
Definition about (imported : N -> bool) (path : N -> N) (x : op) (p : pkg) : Prop :=
  match p with
  | PMono => ~ streams_out x
  | PFlux => streams_out x \/ streams_in x
  | PTime => mentions x (TyPrim NDatetime)
  | POther n => exists a q, imported a = true /\ path a = n /\ mentions x (TyAlias a q)
  | _ => False
  end.
(** It has a parameter that is not a stream. *)
Definition has_data (x : op) : Prop := match o_in x with Unary _ => True | Args _ l => exists n o t, In (n, One o t) l end.
Definition one_primitive (x : op) : Prop := exists p, o_in x = Unary (TyPrim p).

(** The operations of a namespace, with their role and whether they have code; [func]: a function. *)
Definition declared (s : namespace) (func : bool) (r : role) (nocode : bool) (x : op) : Prop :=
  exists n, if func then In (r, mkOperation n nocode x) (s_functions s)
            else exists i, In i (s_interfaces s) /\ f_role i = r /\ In (mkOperation n nocode x) (f_ops i).
Definition handles_it (r : role) : Prop := r = Service \/ r = Events.
(** Functions that are not provided, and operations with code of services and events. *)
Definition serving (s : namespace) (x : op) : Prop :=
  (exists r c, declared s true r c x /\ r <> Provider) \/ exists r, declared s false r false x /\ handles_it r.
(** Those that are declared but not served: provided functions, and operations without code. *)
Definition unserved (s : namespace) (x : op) : Prop :=
  (exists c, declared s true Provider c x) \/ exists r, declared s false r true x /\ handles_it r.
(** What the providers offer. *)
Definition asking (s : namespace) (x : op) : Prop := declared s true Provider false x \/ exists c, declared s false Provider c x.
Definition asking_code (s : namespace) (x : op) : Prop := exists f, declared s f Provider false x.
(** There is a provider. *)
Definition needs_any (s : namespace) : Prop :=
  (exists c x, declared s true Provider c x)
  \/ exists i, In i (s_interfaces s) /\ f_role i = Provider /\ forall o, In o (f_ops i) -> n_nocode o = false.

(** What the operations that are declared but not served ask to import: by their results, and by the parameters of unary operations of handlers. *)
Definition leaves (imported : N -> bool) (path : N -> N) (s : namespace) (p : pkg) : Prop :=
  match p with
  | PMono => exists x, unserved s x /\ ~ streams_out x
  | PFlux => exists x, unserved s x /\ streams_out x
  | POther n => exists a q t x, imported a = true /\ path a = n /\ within (TyAlias a q) t /\
      ((unserved s x /\ (o_out x = ROne t \/ o_out x = RMany (Some t))) \/
       (o_in x = Unary t /\ exists r, declared s false r true x /\ handles_it r))
  | _ => False
  end.
Definition answers (x : op) (p : pkg) : Prop := match p with PMono => ~ streams_out x | PFlux => streams_out x | _ => False end.

(** Operations of the services and events, and functions that are. *)
Definition offered (s : namespace) (func : bool) (x : op) : Prop := exists r c, declared s func r c x /\ handles_it r.
Definition has_service (s : namespace) : Prop := exists i, In i (s_interfaces s) /\ f_role i = Service.
