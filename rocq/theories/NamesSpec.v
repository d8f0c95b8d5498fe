(** What a caller may expect of a call by name. *)
From Coq Require Import List NArith Bool.
From Verif Require Import Base OperationsModel OperationsSpec InvokeModel InvokeSpec InvokeProofs BootModel MonoModel ProxyModel StreamIdModel DispatchModel MeshModel CallModel CallSpec RelayModel RelaySpec NamesModel.
From Verif Require Import MsgpackModel TransformModel StubModel StubSpec.
Import ListNotations.
Open Scope N_scope.

Section Spec.
Context {G : Type}.

(** Fewer than 2^32 registrations, names of up to 65535 bytes, and room for the table where it is put. *)
Definition sound (k : package G) : Prop :=
  InvokeSpec.few (k_calls k) /\ names_ok (k_calls k) /\ table_size (operation_list (irun (k_calls k))) < 2^32 /\
  at_ops (k_place k) + table_size (operation_list (irun (k_calls k))) <= len (mem_ops (k_place k)).
Definition booted (ks : list (package G)) (is : list instance) : Prop := Forall2 (fun k i => NewInstance (built k) = Done i) ks is.

(** Some module exports [x] as [f]. *)
Definition exports (ks : list (package G)) (j : nat) (kd : ikind) (x : info) (f : option G) : Prop :=
  exists k, nth_error ks j = Some k /\ In (x, f) (exported kd (k_calls k)).
(** All that is exported under the name [x] is request/response handlers. *)
Definition plain (ks : list (package G)) (x : info) : Prop := forall j kd f, exports ks j kd x f -> kd = RR /\ f <> None.

(** The outcome of a call [c] of the import [x]: nobody exports it, or a handler somebody exports under that name has been run with the caller's data, and this is its outcome. *)
Definition answered (ks : list (package G)) (r : relay G) (x : info) (c : call) (o : pay + bytes) : Prop :=
  ((forall j kd f, ~ exports ks j kd x f) /\ o = inr not_found) \/
  exists j g st y, exports ks j RR x (Some g) /\ nth_error (y_nets r) j = Some st /\ In y (p_runs (n_peer st Client)) /\
    r_handler y = inr g /\ r_data y = c_data c /\ r_md y = skipn 8 (c_md c) /\ r_out y = Some o.

(** ** With generated code on both sides *)
Context (f64to32 : N -> N) (pt : bytes -> option gtime) (text : rerr -> bytes) (svc : G -> service).
(** Executions in which the guests' handlers are wrappers of services. *)
Definition relay_served (r : relay G) (mv : rmove) : Prop :=
  match mv with
  | RNet i (MConclude Client n o) => forall st y g, nth_error (y_nets r) i = Some st -> nth_error (p_runs (n_peer st Client)) n = Some y -> r_handler y = inr g ->
      wrapper_answers f64to32 pt text (svc g) (r_sid y) (r_data y) = [o]
  | _ => True
  end.
Inductive served_reach (m : mesh) (hs : nat -> ikind -> list (option G)) (n : nat) : relay G -> Prop :=
| v_init : served_reach m hs n (relay_create n)
| v_move : forall r mv r', served_reach m hs n r -> relay_allowed r mv -> relay_served r mv -> do_relay m hs r mv = Some r' -> served_reach m hs n r'.
End Spec.
