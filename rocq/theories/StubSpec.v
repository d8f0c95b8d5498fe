(** What the generated client of an operation owes its user. *)
From Coq Require Import List NArith ZArith Bool.
From Verif Require Import Base OutcomeModel OutcomeSpec InvokeModel StreamIdModel ProxyModel DispatchModel CallModel CallSpec MsgpackModel MsgpackSpec TransformModel TransformSpec StubModel.
Import ListNotations.
Open Scope N_scope.

(** The service is given the caller's arguments by name, and zero values for the fields the caller does not know. *)
Definition seen (sc : schema) (e : env) (v : service) : list fval :=
  map (fun f => if in_dec (list_eq_dec N.eq_dec) (fst f) (map fst sc) then e (fst f) else sv_zero v (fst f)) (sv_schema v).

(** Times other than those from 1970 to 2514 have a format that Skip does not know. *)
Definition near (s : scal) : Prop := match s with STime t => (0 <= t_sec t < 2^34)%Z | _ => True end.
Definition field_near (v : fval) : Prop :=
  match v with VScal s | VOpt (Some s) => near s | VArr (Some l) => Forall near l | _ => True end.

(** The two sides agree on the types of the fields that both have, and the service can skip the others. *)
Definition readable (sc : schema) (e : env) (sc' : schema) : Prop :=
  forall n k, In (n, k) sc -> (forall k', In (n, k') sc' -> k' = k) /\ (~ In n (map fst sc') -> field_near (e n)).

(** The results of a service are of the type its client expects, and shorter than 4 GiB. *)
Definition returns (v : service) (k : kind) : Prop :=
  forall sid args x, outcome_of (sv_body v sid args) = Some (inl x) ->
  exists s, x = VResult s /\ kind_of s = k /\ scal_ok s /\ len (mv_bytes (scal_mv s)) + scal_excess s < 2^32.

(** Arguments fit their record, which is shorter than 4 GiB. *)
Definition callable (sc : schema) (e : env) : Prop :=
  schema_ok sc /\ record_ok sc e /\ len (calls_bytes (struct_calls sc e)) + calls_excess (struct_calls sc e) < 2^32.

Section Spec.
Context {H : Type}.
Context (w : side -> site) (tbl : side -> ikind -> list (option H)).
Context (f64to32 : N -> N) (pt : bytes -> option gtime) (text : rerr -> bytes) (svc : H -> service).

(** Executions in which all request/response handlers are wrappers of services. *)
Definition served (st : net H) (m : move) : Prop :=
  match m with
  | MConclude s i o => forall r, nth_error (p_runs (n_peer st s)) i = Some r -> wrapper_answers f64to32 pt text (svc (r_handler r)) (r_sid r) (r_data r) = [o]
  | _ => True
  end.
Inductive stub_reach : net H -> Prop :=
| s_init : stub_reach net_create
| s_move : forall st m st', stub_reach st -> allowed st m -> served st m -> do_move w tbl st m = Some st' -> stub_reach st'.

(** What the user of the stub sees of a call. *)
Definition user_sees (k : kind) (c : call) : list (value + bytes) := subscribe zero_value (stub_reply f64to32 pt text k (CallSpec.results c)) closers.
End Spec.
