(** What generated modules offer and need, said without the generator. *)
From Coq Require Import List NArith Bool.
From Verif Require Import Base OperationsModel InvokeModel InvokeSpec BootModel MonoModel ProxyModel StreamIdModel DispatchModel CallModel RelayModel NamesModel GenModel OpGenModel RegGenModel.
Import ListNotations.
Open Scope N_scope.

(** What goes between the caller and the handler: items both ways, items to the caller, or one answer. *)
Definition takes_stream (x : op) : Prop := exists n l m t, o_in x = Args n l /\ In (m, Many t) l.
Definition gives_stream (x : op) : Prop := exists t, o_out x = RMany t.
Definition crosses (x : op) (k : ikind) : Prop :=
  match k with
  | RC => takes_stream x
  | RS => ~ takes_stream x /\ gives_stream x
  | RR => ~ takes_stream x /\ ~ gives_stream x
  | FNF => False
  end.

(** The namespace has a service [i] with an operation [o] declared as [x], with code. *)
Definition handles (s : namespace) (i o : bytes) (x : op) : Prop :=
  exists f d, In f (s_interfaces s) /\ f_role f = Service /\ f_name f = i /\ In d (f_ops f) /\ d = mkOperation o false x.
(** One of its services uses the provider [i], which has the operation. *)
Definition needs (s : namespace) (i o : bytes) (x : op) : Prop :=
  exists g f c, In g (s_interfaces s) /\ f_role g = Service /\ In i (f_uses g) /\ In f (s_interfaces s) /\ f_role f = Provider /\ f_name f = i /\ In (mkOperation o c x) (f_ops f).
(** It has a function that is provided by others. *)
Definition calls_function (s : namespace) (o : bytes) (x : op) : Prop := exists c, In (Provider, mkOperation o c x) (s_functions s).

Definition undotted (s : namespace) : Prop := forall f, In f (s_interfaces s) -> ~ In 46 (f_name f).

(** A module made from a namespace and the user's methods. *)
Record program G := mkProgram { g_space : namespace; g_impl : bytes -> bytes -> G }.
Arguments mkProgram {G}. Arguments g_space {G}. Arguments g_impl {G}.
Definition made {G} (k : package G) (p : program G) : Prop := k_calls k = registrations (g_impl p) (g_space p).
(** One of the programs handles the operation, and which. *)
Definition handled {G} (ps : list (program G)) (j : nat) (ns i o : bytes) (x : op) (g : G) : Prop :=
  exists p, nth_error ps j = Some p /\ s_name (g_space p) = ns /\ handles (g_space p) i o x /\ g = g_impl p i o.

(** The type of what a request carries, if it carries something. *)
Definition carries (types : N -> option def) (x : op) (t : ty) : Prop :=
  match o_in x with Unary u => t = u | Args n l => t = TyType n /\ plain_params l <> [] /\ types n = Some (Rec (plain_params l)) end.

(** The outcome of a call [c]: nobody handles the operation, or the method of a program that does has been run with the caller's data, and this is its outcome. *)
Definition answered_by {G} (ps : list (program G)) (r : relay G) (ns i o : bytes) (c : call) (out : pay + bytes) : Prop :=
  ((forall j x g, ~ handled ps j ns i o x g) /\ out = inr not_found) \/
  exists j x g st y, handled ps j ns i o x g /\ nth_error (y_nets r) j = Some st /\ In y (p_runs (n_peer st Client)) /\
    r_handler y = inr g /\ r_data y = c_data c /\ r_md y = skipn 8 (c_md c) /\ r_out y = Some out.
