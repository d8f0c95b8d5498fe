(** C88: a record that the generated code of one type writes and that of another reads. *)
From Coq Require Import List NArith ZArith Lia Bool.
From Verif Require Import Base OperationsModel MsgpackModel MsgpackSpec GenModel GenSpec GenProofs GenEvolveProofs GenProps.
Import ListNotations.
Open Scope N_scope.

(** A record written as one type and read as another whose fields of the same name are the same: the fields that both have come back, those that only the
    reader knows are the zero value, and those that only the writer knows are passed over. *)
Theorem C88_evolves : forall f64to32 pt (C : Type) (parse : N -> scal -> option C) (format : N -> C -> scal) imported types,
  (forall n d, types n = Some d -> def_ok imported d) ->
  forall n1 n2 fs1 fs2 l, types n1 = Some (Rec fs1) -> types n2 = Some (Rec fs2) ->
  (forall name x y, In (name, x) fs1 -> In (name, y) fs2 -> x = y) ->
  of_type parse format imported types false (TyType n1) (VRec l) ->
  (forall name o t v c, In (name, (o, t), v) (combine fs1 l) -> assoc name fs2 = None -> msgpackWrite format imported types t o v = Some c -> Forall near_call c) ->
  exists calls most, msgpackWrite format imported types (TyType n1) false (VRec l) = Some calls /\ calls_ok calls /\
  (len (calls_bytes calls) + calls_excess calls < 2^32 ->
   exists data, ToBytes format imported types n1 (VRec l) = Some (Ret data) /\
   forall fuel, (most <= fuel)%nat -> FromBytes f64to32 pt parse imported types fuel n2 data =
     match kept imported types fs2 fs1 l with Some ws => Ret (VRec (carried fs2 ws)) | None => Panic end).
Proof. exact @evolves. Qed.
Print Assumptions C88_evolves.

(** Version 1: { n: string, at: datetime, kids: [V1], u: i64? }; version 3: { more: [string], u: i64?, n: string, flag: bool }. *)
Definition v1x : list (bytes * (bool * ty)) := [([110], (false, TyPrim NString)); ([97], (false, TyPrim NDatetime)); ([107], (false, TyList false (TyType 1))); ([117], (true, TyPrim NI64))].
Definition v3x : list (bytes * (bool * ty)) := [([109], (false, TyList false (TyPrim NString))); ([117], (true, TyPrim NI64)); ([110], (false, TyPrim NString)); ([102], (false, TyPrim NBool))].
Definition typesy (n : N) : option def := if n =? 1 then Some (Rec v1x) else if n =? 3 then Some (Rec v3x) else None.
Definition oldx (sec : Z) (kids : list (gval bytes)) : gval bytes := VRec [VScal (SStr [65]); VScal (STime (mkTime sec 5)); VList kids; VPtr (VScal (SI64 9))].
Example C88_evolves_case : forall f64to32 pt,
  (forall n d, typesy n = Some d -> def_ok importedx d)
  /\ (forall name x y, In (name, x) v1x -> In (name, y) v3x -> x = y)
  /\ of_type parsex formatx importedx typesy false (TyType 1) (oldx 100 [oldx 7 []; oldx 8 []])
  /\ (exists data, ToBytes formatx importedx typesy 1 (oldx 100 [oldx 7 []; oldx 8 []]) = Some (Ret data) /\
     FromBytes f64to32 pt parsex importedx typesy 9 3 data = Ret (VRec [VNil; VPtr (VScal (SI64 9)); VScal (SStr [65]); VZero]))
  /\ exists data, ToBytes formatx importedx typesy 3 (VRec [VList [VScal (SStr [66])]; VNil; VScal (SStr [65]); VScal (SBool true)]) = Some (Ret data) /\
     FromBytes f64to32 pt parsex importedx typesy 9 1 data = Ret (VRec [VScal (SStr [65]); VZero; VNil; VNil]).
Proof.
  intros f64to32 pt. split; [|split; [|split; [|split]]].
  - intros n d E. unfold typesy in E. destruct (n =? 1); [injection E as <-|destruct (n =? 3); [injection E as <-|discriminate E]];
    (split; [cbn; repeat (constructor; [cbn; intuition discriminate|]); constructor|]; split; [reflexivity|]; repeat constructor).
  - intros name x y I J. cbn [v1x v3x In] in I, J. repeat (destruct I as [I|I]; [injection I as <- <-; repeat (destruct J as [J|J]; [injection J; intros; subst; first [reflexivity|discriminate]|]); contradiction|]). contradiction.
  - vm_compute. repeat (split; try reflexivity; try discriminate; try (repeat constructor; cbn; intuition discriminate)).
  - eexists. split; [vm_compute; reflexivity|vm_compute; reflexivity].
  - eexists. split; [vm_compute; reflexivity|vm_compute; reflexivity].
Qed.

(** A time after 2514 in a field that the reader does not know makes the record unreadable. *)
Theorem C88_evolves_refuted : forall f64to32 pt,
  of_type parsex formatx importedx typesy false (TyType 1) (oldx (2^34) []) /\
  exists data, ToBytes formatx importedx typesy 1 (oldx (2^34) []) = Some (Ret data)
  /\ FromBytes f64to32 pt parsex importedx typesy 9 1 data = Ret (oldx (2^34) [])
  /\ forall v, FromBytes f64to32 pt parsex importedx typesy 9 3 data <> Ret v.
Proof.
  intros f64to32 pt. split.
  - vm_compute. repeat (split; try reflexivity; try discriminate; try (repeat constructor; cbn; intuition discriminate)).
  - eexists. split; [vm_compute; reflexivity|]. split; [vm_compute; reflexivity|]. intro v. vm_compute. discriminate.
Qed.
Print Assumptions C88_evolves_refuted.
Example C88_evolves_refuted_case : ~ Forall near_call [inl (PVal (STime (mkTime (2^34) 5)))].
Proof. intro H. inversion H as [|? ? X _]. destruct X as [_ X]. vm_compute in X. discriminate X. Qed.
