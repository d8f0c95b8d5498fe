(** Specification of record encodings: any order, any formats, unknown entries in between. *)
From Coq Require Import List NArith ZArith.
From Verif Require Import Base MsgpackModel MsgpackSpec TransformModel.
Import ListNotations.
Open Scope N_scope.

(** [field_enc k v bs]: [bs] is an encoding of the value [v] of a field of type [k]. *)
Inductive field_enc : fkind -> fval -> bytes -> Prop :=
| enc_one : forall s v, scal_ok s -> mv_ok v -> alt_mv s v -> field_enc (FScal (kind_of s)) (VScal s) (mv_bytes v)
| enc_none : forall k, field_enc (FOpt k) (VOpt None) (mv_bytes MNil)
| enc_some : forall s v, scal_ok s -> mv_ok v -> alt_mv s v -> field_enc (FOpt (kind_of s)) (VOpt (Some s)) (mv_bytes v)
| enc_nolist : forall k, field_enc (FArr k) (VArr None) (mv_bytes MNil)
| enc_list : forall k f l vs, f <> Len8 -> len vs < len_limit 16 f ->
    Forall2 (fun s v => kind_of s = k /\ scal_ok s /\ mv_ok v /\ alt_mv s v) l vs ->
    field_enc (FArr k) (VArr (Some l)) (mv_bytes (MArr f vs)).

(** One entry of a record: a name with the value of a known field, or with any value Skip knows. *)
Inductive entry_enc (sc : schema) : bytes * option fval -> bytes -> Prop :=
| known : forall f n k v bs, len n < len_limit 32 f -> In (n, k) sc -> field_enc k v bs ->
    entry_enc sc (n, Some v) (mv_bytes (MStr f n) ++ bs)
| unknown : forall f n w, len n < len_limit 32 f -> ~ In n (map fst sc) -> mv_ok w -> skippable w ->
    entry_enc sc (n, None) (mv_bytes (MStr f n) ++ mv_bytes w).

(** The record after all entries: the last entry for a field counts. *)
Definition assign (e : env) (x : bytes * option fval) : env :=
  match snd x with
  | Some v => fun m => if list_eq_dec N.eq_dec m (fst x) then v else e m
  | None => e
  end.

(** A record value fits its schema. *)
Definition field_ok (k : fkind) (v : fval) : Prop :=
  match k, v with
  | FScal k, VScal s => kind_of s = k /\ scal_ok s
  | FOpt k, VOpt None => True
  | FOpt k, VOpt (Some s) => kind_of s = k /\ scal_ok s
  | FArr k, VArr None => True
  | FArr k, VArr (Some l) => len l < 2^32 /\ Forall (fun s => kind_of s = k /\ scal_ok s) l
  | _, _ => False
  end.
Definition schema_ok (sc : schema) : Prop :=
  NoDup (map fst sc) /\ len sc < 2^32 /\ Forall (fun f => len (fst f) < 2^32 /\ wf (fst f)) sc.
Definition record_ok (sc : schema) (e : env) : Prop := Forall (fun f => field_ok (snd f) (e (fst f))) sc.
(** Equal on the fields of the schema. *)
Definition same_record (sc : schema) (e e' : env) : Prop := forall n, In n (map fst sc) -> e n = e' n.
