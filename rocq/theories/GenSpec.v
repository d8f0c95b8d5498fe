(** What the codecs written by the generator are to do: which fields compile, what a record is after it was written and read. *)
From Coq Require Import List NArith ZArith Bool.
From Verif Require Import Base OperationsModel MsgpackModel MsgpackSpec GenModel.
Import ListNotations.
Open Scope N_scope.

(** Where a type stands. *)
Inductive place := Field | Item | Value.

(** The types for which the generated code compiles.  Not lists of lists, not maps of maps, not lists of optional lists, maps or bytes; no [any]; no map
    with keys of type bytes; no alias of datetime, unless imported; no alias of u8, unless imported or optional; no optional alias of bytes. *)
Definition named (p q : pname) : bool :=
  match p, q with
  | NU8, NU8 | NAny, NAny | NDatetime, NDatetime | NBytes, NBytes => true
  | _, _ => false
  end.
Fixpoint plain (imported : N -> bool) (pl : place) (o : bool) (t : ty) : bool :=
  match t with
  | TyPrim p => negb (named p NAny) && negb (match pl with Item => o && named p NBytes | _ => false end)
  | TyType _ | TyUnion _ | TyEnum _ => true
  | TyAlias a p =>
    negb (named p NAny) && negb (o && named p NBytes) && (imported a || (negb (named p NDatetime) && (o || negb (named p NU8))))
  | TyList o' u => match pl with Item => false | _ => true end && plain imported Item o' u
  | TyMap k o' u => match pl with Field => true | Item => negb o | Value => false end && negb (named k NAny) && negb (named k NBytes) && plain imported Value o' u
  end.

(** The Go types of the primitive types. *)
Definition means (p : pname) : option kind :=
  match p with
  | NID | NString => Some KStr | NBool => Some KBool | NDatetime => Some KTime
  | NI8 => Some KI8 | NU8 => Some KU8 | NI16 => Some KI16 | NU16 => Some KU16 | NI32 => Some KI32 | NU32 => Some KU32 | NI64 => Some KI64 | NU64 => Some KU64
  | NF32 => Some KF32 | NF64 => Some KF64 | NBytes => Some KBytes | NAny => None
  end.

Section Values.
Context {C : Type} (parse : N -> scal -> option C) (format : N -> C -> scal) (imported : N -> bool) (types : N -> option def).
Let gval := gval C.

(** A record type is fit for use: its fields have different names of a length that can be written, and types that compile. *)
Definition def_ok (d : def) : Prop :=
  NoDup (map fst (fields d)) /\ len (fields d) < 2^32 /\
  Forall (fun f => scal_ok (SStr (fst f)) /\ plain imported Field (fst (snd f)) (snd (snd f)) = true) (fields d).

Section Each.
Variable P : bool -> ty -> gval -> Prop.
Fixpoint every (fs : list (bytes * (bool * ty))) (l : list gval) {struct l} : Prop :=
  match l, fs with
  | [], [] => True
  | v :: l', (_, (o, t)) :: fs' => P o t v /\ every fs' l'
  | _, _ => False
  end.
Definition whole (n : N) (l : list gval) : Prop := match types n with Some d => every (fields d) l | None => False end.
End Each.

(** A value of primitive type [p]. *)
Definition of_prim (p : pname) (s : scal) : Prop := means p = Some (kind_of s) /\ scal_ok s.
(** A value of an imported type: it is formatted to a value of the alias's type that parses back. *)
Definition of_import (a : N) (p : pname) (c : C) : Prop := of_prim p (format a c) /\ parse a (format a c) = Some c.

(** The values of a type, optional or not. *)
Fixpoint of_type (o : bool) (t : ty) (v : gval) {struct v} : Prop :=
  match t, v with
  | TyPrim p, VScal s => (o = true -> p = NBytes) /\ of_prim p s
  | TyPrim p, VPtr (VScal s) => o = true /\ p <> NBytes /\ of_prim p s
  | TyType n, VRec l | TyUnion n, VRec l => o = false /\ whole of_type n l
  | TyType n, VPtr (VRec l) | TyUnion n, VPtr (VRec l) => o = true /\ whole of_type n l
  | TyEnum _, VScal s => o = false /\ of_prim NI32 s
  | TyEnum _, VPtr (VScal s) => o = true /\ of_prim NI32 s
  | TyAlias a p, VScal s => o = false /\ imported a = false /\ of_prim p s
  | TyAlias a p, VPtr (VScal s) => o = true /\ imported a = false /\ of_prim p s
  | TyAlias a p, VImp c => o = false /\ imported a = true /\ of_import a p c
  | TyAlias a p, VPtr (VImp c) => o = true /\ imported a = true /\ of_import a p c
  | TyList o' u, VList l => len l < 2^32 /\ all (of_type o' u) l
  | TyMap k o' u, VMap l => len l < 2^32 /\ NoDup (map fst l) /\ all (fun kv => of_prim k (fst kv) /\ of_type o' u (snd kv)) l
  | (TyList _ _ | TyMap _ _ _), VNil => True
  | _, VNil => o = true
  | _, _ => False
  end.

(** What is read after [v] was written; [None]: reading panics. *)
Section Each2.
Variable f : bool -> ty -> gval -> option gval.
Definition cons_opt {A} (a : option A) (l : option (list A)) : option (list A) := match a, l with Some x, Some y => Some (x :: y) | _, _ => None end.
Fixpoint back_fields (fs : list (bytes * (bool * ty))) (l : list gval) {struct l} : option (list gval) :=
  match l, fs with
  | v :: l', (_, (o, t)) :: fs' => cons_opt (f o t v) (back_fields fs' l')
  | _, _ => Some []
  end.
(** Of a union the first member that is set, if any. *)
Fixpoint back_member (fs : list (bytes * ty)) (l : list gval) {struct l} : option (list gval) :=
  match l, fs with
  | VNil :: l', _ :: fs' => cons_opt (Some VNil) (back_member fs' l')
  | v :: l', (_, t) :: fs' => cons_opt (f true t v) (Some (map (fun _ => VNil) l'))
  | _, _ => Some []
  end.
Definition back_whole (n : N) (l : list gval) : option (list gval) :=
  match types n with Some (Rec fs) => back_fields fs l | Some (Uni fs) => back_member fs l | None => None end.
Fixpoint back_items (o : bool) (t : ty) (l : list gval) : option (list gval) :=
  match l with [] => Some [] | v :: l' => cons_opt (f o t v) (back_items o t l') end.
Fixpoint back_pairs (o : bool) (t : ty) (l : list (scal * gval)) : option (list (scal * gval)) :=
  match l with [] => Some [] | (k, v) :: l' => cons_opt (option_map (pair k) (f o t v)) (back_pairs o t l') end.
End Each2.
Definition unset (n : N) (l : list gval) : bool :=
  match types n with Some (Uni _) => forallb (fun v => match v with VNil => true | _ => false end) l | _ => false end.
Fixpoint back (o : bool) (t : ty) (v : gval) {struct v} : option gval :=
  match t, v with
  | (TyType n | TyUnion n), VRec l => option_map VRec (back_whole back n l)
  | (TyType n | TyUnion n), VPtr (VRec l) => if unset n l then Some VNil else option_map (fun l => VPtr (VRec l)) (back_whole back n l)
  | TyEnum _, VNil => None
  | TyAlias a _, VNil => if imported a then Some VNil else None
  | TyList o' u, VNil => Some (VList [])
  | TyList o' u, VList l => option_map VList (back_items back o' u l)
  | TyMap _ _ _, VNil => Some (VMap [])
  | TyMap _ o' u, VMap l => option_map VMap (back_pairs back o' u l)
  | _, v => Some v
  end.

(** Values that are read as they were: in lists and maps that are not nil, enums and aliases (not imported) that are set, unions with exactly one
    member set. *)
Section Each3.
Variable P : bool -> ty -> gval -> Prop.
Fixpoint one_member (fs : list (bytes * ty)) (l : list gval) {struct l} : Prop :=
  match l, fs with
  | VNil :: l', _ :: fs' => one_member fs' l'
  | v :: l', (_, t) :: fs' => P true t v /\ Forall (fun w => w = VNil) l'
  | _, _ => False
  end.
Definition full_whole (n : N) (l : list gval) : Prop :=
  match types n with Some (Rec fs) => every P fs l | Some (Uni fs) => one_member fs l | None => False end.
End Each3.
Fixpoint full (o : bool) (t : ty) (v : gval) {struct v} : Prop :=
  match t, v with
  | (TyType n | TyUnion n), (VRec l | VPtr (VRec l)) => full_whole full n l
  | (TyEnum _ | TyList _ _ | TyMap _ _ _), VNil => False
  | TyAlias a _, VNil => imported a = true
  | TyList o' u, VList l => all (full o' u) l
  | TyMap _ o' u, VMap l => all (fun kv => full o' u (snd kv)) l
  | _, _ => True
  end.

(** ** A record written as one type and read as another *)
Fixpoint assoc {A} (n : bytes) (l : list (bytes * A)) : option A :=
  match l with [] => None | (m, a) :: l' => if list_eq_dec N.eq_dec n m then Some a else assoc n l' end.
(** The fields of the first type that the second has too, as they are read; [None]: reading one of them panics. *)
Fixpoint kept (fs2 fs1 : list (bytes * (bool * ty))) (l : list gval) {struct l} : option (list (bytes * gval)) :=
  match l, fs1 with
  | v :: l', (name, (o, t)) :: fs' =>
    match assoc name fs2 with
    | Some _ => cons_opt (option_map (pair name) (back o t v)) (kept fs2 fs' l')
    | None => kept fs2 fs' l'
    end
  | _, _ => Some []
  end.
(** The zero value of a field: nil, if its Go type has a nil. *)
Definition fresh (o : bool) (t : ty) : gval := match o, t with true, _ | _, (TyList _ _ | TyMap _ _ _) => VNil | _, _ => VZero end.
Definition carried (fs2 : list (bytes * (bool * ty))) (ws : list (bytes * gval)) : list gval :=
  map (fun f => match assoc (fst f) ws with Some w => w | None => fresh (fst (snd f)) (snd (snd f)) end) fs2.
End Values.

(** What Skip passes over: times from 1970 until 2514, maps of fewer than 2^31 pairs. *)
Definition near_call (c : prim + gov) : Prop :=
  match c with
  | inl (PVal (STime t)) | inl (POpt (Some (STime t))) => (0 <= t_sec t < 2^34)%Z
  | inl (PMap n) => n < 2^31
  | _ => True
  end.
