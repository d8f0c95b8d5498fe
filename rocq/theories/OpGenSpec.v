(** Which operations the generated invokers and wrappers are for, said without the generator. *)
From Coq Require Import List NArith Bool.
From Verif Require Import Base MsgpackModel MsgpackSpec GenModel GenSpec OpGenModel.
Import ListNotations.
Open Scope N_scope.

Section Spec.
Context (imported : N -> bool).

(** Primitive values, enums and aliases of string. *)
Definition simple (t : ty) : bool :=
  match t with
  | TyPrim NID | TyPrim NAny => false
  | TyPrim _ | TyEnum _ => true
  | TyAlias a NString => negb (imported a)
  | _ => false
  end.
Definition object (t : ty) : bool := match t with TyType _ | TyUnion _ => true | _ => false end.
Definition one_result (t : ty) : bool := simple t || object t || match t with TyList false u => object u | _ => false end.

(** Unary parameters. *)
Definition caller_in (t : ty) : bool :=
  match t with TyPrim NID | TyPrim NDatetime => false | TyPrim _ | TyEnum _ | TyType _ | TyUnion _ => true | _ => false end.
Definition handler_in (t : ty) : bool :=
  match t with
  | TyPrim NAny | TyAlias _ NBytes | TyAlias _ NDatetime | TyAlias _ NAny => false
  | TyPrim _ | TyEnum _ | TyType _ | TyUnion _ => true
  | TyAlias a _ => negb (imported a)
  | _ => false
  end.
(** Items of a stream parameter. *)
Definition caller_item (t : ty) : bool :=
  match t with TyPrim NString | TyPrim NBytes | TyPrim NBool => true | TyPrim _ => false | _ => simple t || object t end.
Definition handler_item (t : ty) : bool := simple t || object t.
(** Results, with or without a stream parameter. *)
Definition caller_out (s : bool) (r : result) : Prop :=
  match r with RVoid => s = false | ROne t => s = false /\ one_result t = true | RMany None => False | RMany (Some t) => one_result t = true end.
Definition handler_out (s : bool) (r : result) : Prop :=
  match r with RVoid => s = false | ROne t => s = false /\ one_result t = true | RMany None => False | RMany (Some t) => simple t = true end.

Definition no_stream (l : list (bytes * param)) : Prop := forall n t, ~ In (n, Many t) l.
Definition plain_all (l : list (bytes * param)) : Prop := forall n o t, In (n, One o t) l -> plain imported Field o t = true.
(** The operations for which the generated Go code compiles: on the side of the caller, and on the side of the handler. *)
Definition asks (x : op) : Prop :=
  match o_in x with
  | Unary t => caller_in t = true /\ caller_out false (o_out x)
  | Args _ l => plain_all l /\
    ((no_stream l /\ caller_out false (o_out x)) \/
     exists l1 n t l2, l = l1 ++ (n, Many t) :: l2 /\ no_stream l1 /\ no_stream l2 /\ caller_item t = true /\ caller_out true (o_out x))
  end.
Definition serves (x : op) : Prop :=
  match o_in x with
  | Unary t => handler_in t = true /\ handler_out false (o_out x)
  | Args _ l => plain_all l /\
    ((no_stream l /\ handler_out false (o_out x)) \/
     exists l1 n t, l = l1 ++ [(n, Many t)] /\ no_stream l1 /\ handler_item t = true /\ handler_out true (o_out x))
  end.
End Spec.

(** What is sent with [e] is received with [d] as the value that C87 gives. *)
Section Goes.
Context (f64to32 : N -> N) (pt : bytes -> option gtime) (fmt : gtime -> bytes).
Context {C : Type} (parse : N -> scal -> option C) (format : N -> C -> scal).
Context (imported : N -> bool) (types : N -> option def).
Definition goes (e : option enc) (d : option dec) (t : ty) (v : gval C) : Prop :=
  exists e0 d0 calls most, e = Some e0 /\ d = Some d0 /\ msgpackWrite format imported types t false v = Some calls /\ calls_ok calls /\
  (len (calls_bytes calls) + calls_excess calls < 2^32 ->
   exists data, run_enc fmt format imported types e0 v = Some (Ret data) /\
   forall fuel, (most <= fuel)%nat -> run_dec f64to32 pt parse imported types fuel d0 data = match back imported types false t v with Some w => Ret w | None => Panic end).
(** A time that is sent as text (RFC 3339, so of the years 0 to 9999) and read back as that time. *)
Definition text_ok (v : gval C) : Prop :=
  match v with VScal (STime t) => pt (fmt t) = Some t /\ scal_ok (SStr (fmt t)) /\ len (mv_bytes (scal_mv (SStr (fmt t)))) < 2^32 | _ => True end.
End Goes.
