(** C87: the record codecs that the code generator writes. *)
From Coq Require Import List NArith ZArith Lia Bool.
From Verif Require Import Base OperationsModel MsgpackModel MsgpackSpec GenModel GenSpec GenCheckProofs GenProofs.
Import ListNotations.
Open Scope N_scope.

(** The code that reads a field compiles exactly for the plain types. *)
Theorem C87_compiles : forall imported o t,
  (exists scope, typeds (msgpackRead imported VField t o) [(VField, gotyo o t)] = Some scope) <-> plain imported Field o t = true.
Proof. exact compiles. Qed.
Print Assumptions C87_compiles.
Example C87_compiles_case :
  let deep := TyMap NString true (TyList false (TyMap NU16 false (TyList true (TyUnion 3)))) in
  plain (fun _ => false) Field true deep = true /\ typeds (msgpackRead (fun _ => false) VField deep true) [(VField, gotyo true deep)] <> None.
Proof. vm_compute. split; [reflexivity|discriminate]. Qed.

(** Types of Apex that the generated code does not compile for: lists of lists, maps of maps, lists of optional maps, aliases of u8 and datetime. *)
Theorem C87_compiles_refuted :
  let no o t := typeds (msgpackRead (fun _ => false) VField t o) [(VField, gotyo o t)] = None in
  no false (TyList false (TyList false (TyPrim NString))) /\ no false (TyMap NString false (TyMap NString false (TyPrim NI32)))
  /\ no false (TyList true (TyMap NString false (TyPrim NI32))) /\ no false (TyList true (TyPrim NBytes))
  /\ no false (TyAlias 1 NU8) /\ no true (TyAlias 1 NDatetime) /\ no true (TyAlias 1 NBytes).
Proof. vm_compute. repeat split. Qed.
Print Assumptions C87_compiles_refuted.
Example C87_compiles_refuted_case : plain (fun _ => false) Field true (TyAlias 1 NU8) = true /\ plain (fun _ => true) Field false (TyAlias 1 NU8) = true.
Proof. vm_compute. split; reflexivity. Qed.

(** A record written with ToBytes and read with Decode is [back] of it; reading panics exactly when [back] says so. *)
Theorem C87_round_trip : forall f64to32 pt (C : Type) (parse : N -> scal -> option C) (format : N -> C -> scal) imported types,
  (forall n d, types n = Some d -> def_ok imported d) ->
  forall n v, of_type parse format imported types false (TyType n) v ->
  exists calls most, msgpackWrite format imported types (TyType n) false v = Some calls /\ calls_ok calls /\
  (len (calls_bytes calls) + calls_excess calls < 2^32 ->
   exists data, ToBytes format imported types n v = Some (Ret data) /\
   forall fuel, (most <= fuel)%nat ->
     FromBytes f64to32 pt parse imported types fuel n data = match back imported types false (TyType n) v with Some w => Ret w | None => Panic end).
Proof. exact @round_trip. Qed.
Print Assumptions C87_round_trip.

(** A record without nil lists and maps, unset enums and aliases, and unions with no or several members comes back as it was. *)
Theorem C87_as_it_was : forall f64to32 pt (C : Type) (parse : N -> scal -> option C) (format : N -> C -> scal) imported types,
  (forall n d, types n = Some d -> def_ok imported d) ->
  forall n v, of_type parse format imported types false (TyType n) v -> full imported types false (TyType n) v ->
  exists calls most, msgpackWrite format imported types (TyType n) false v = Some calls /\ calls_ok calls /\
  (len (calls_bytes calls) + calls_excess calls < 2^32 ->
   exists data, ToBytes format imported types n v = Some (Ret data) /\
   forall fuel, (most <= fuel)%nat -> FromBytes f64to32 pt parse imported types fuel n data = Ret v).
Proof.
  intros f64to32 pt C parse format imported types K n v T F.
  destruct (round_trip f64to32 pt parse format imported types K n v T) as (calls & most & W & O & H). exists calls, most. split; [exact W|]. split; [exact O|].
  intro B. destruct (H B) as (data & D & R). exists data. split; [exact D|]. intros fuel M. rewrite (R fuel M), (full_back parse format imported types v _ _ F T). reflexivity.
Qed.
Print Assumptions C87_as_it_was.

(** A tree: { name: string, kids: [Tree], next: Tree?, kind: Enum?, tags: {string: [u16?]}, at: When, any: Any } with an imported alias of string and a
    union of a tree, a number and an enum. *)
Definition importedx (a : N) : bool := a =? 9.
Definition typesx (n : N) : option def :=
  if n =? 1 then Some (Rec [([110], (false, TyPrim NString)); ([107], (false, TyList false (TyType 1))); ([120], (true, TyType 1)); ([101], (true, TyEnum 5));
    ([116], (false, TyMap NString false (TyList true (TyPrim NU16)))); ([97], (false, TyAlias 9 NString)); ([117], (true, TyUnion 2))])
  else if n =? 2 then Some (Uni [([116], TyType 1); ([110], TyPrim NI64); ([101], TyEnum 5)])
  else None.
Definition parsex (a : N) (s : scal) : option bytes := match s with SStr b => Some b | _ => None end.
Definition formatx (a : N) (c : bytes) : scal := SStr c.
Definition leafx : gval bytes :=
  VRec [VScal (SStr [65]); VList []; VNil; VPtr (VScal (SI32 (-3))); VMap [(SStr [1], VList [VPtr (VScal (SU16 300)); VNil]); (SStr [2], VList [])]; VImp [49]; VNil].
Definition treex : gval bytes :=
  VRec [VScal (SStr [66]); VList [leafx; leafx]; VPtr leafx; VPtr (VScal (SI32 7)); VMap []; VImp []; VPtr (VRec [VNil; VPtr (VScal (SI64 70000)); VNil])].
Lemma typesx_ok : forall n d, typesx n = Some d -> def_ok importedx d.
Proof.
  intros n d E. unfold typesx in E. destruct (n =? 1); [injection E as <-|destruct (n =? 2); [injection E as <-|discriminate E]];
  (split; [cbn; repeat (constructor; [cbn; intuition discriminate|]); constructor|]; split; [reflexivity|]; repeat constructor).
Qed.
Example C87_as_it_was_case : forall f64to32 pt,
  of_type parsex formatx importedx typesx false (TyType 1) treex /\ full importedx typesx false (TyType 1) treex /\
  exists data, ToBytes formatx importedx typesx 1 treex = Some (Ret data) /\ len data = 131 /\ FromBytes f64to32 pt parsex importedx typesx 3 1 data = Ret treex.
Proof.
  intros f64to32 pt. split; [|split].
  - vm_compute. repeat (split; try reflexivity; try discriminate; try (repeat constructor; cbn; intuition discriminate)).
  - vm_compute. repeat (split || constructor).
  - eexists. split; [vm_compute; reflexivity|]. split; vm_compute; reflexivity.
Qed.

(** What is not as it was: a list that is nil is empty; of two members of a union one is left; a pointer to a union with no member set is nil. *)
Theorem C87_as_it_was_refuted : forall f64to32 pt,
  let back_of n v := match ToBytes formatx importedx typesx n v with Some (Ret data) => FromBytes f64to32 pt parsex importedx typesx 3 n data | _ => Panic end in
  let record kids u := VRec [VScal (SStr [65]); kids; VNil; VPtr (VScal (SI32 1)); VMap []; VImp []; u] in
  back_of 1 (record VNil VNil) = Ret (record (VList []) VNil)
  /\ back_of 2 (VRec [VNil; VPtr (VScal (SI64 5)); VPtr (VScal (SI32 6))]) = Ret (VRec [VNil; VPtr (VScal (SI64 5)); VNil])
  /\ back_of 1 (record (VList []) (VPtr (VRec [VNil; VNil; VNil]))) = Ret (record (VList []) VNil).
Proof. intros f64to32 pt. vm_compute. repeat split. Qed.
Print Assumptions C87_as_it_was_refuted.
Example C87_as_it_was_refuted_case : back importedx typesx false (TyType 2) (VRec [VNil; VPtr (VScal (SI64 5)); VPtr (VScal (SI32 6))]) = Some (VRec (C := bytes) [VNil; VPtr (VScal (SI64 5)); VNil]).
Proof. vm_compute. reflexivity. Qed.

(** An optional enum that is not set cannot be read: Decode panics on what ToBytes wrote. *)
Theorem C87_panics_refuted : forall f64to32 pt,
  let v : gval bytes := VRec [VScal (SStr [65]); VList []; VNil; VNil; VMap []; VImp []; VNil] in
  of_type parsex formatx importedx typesx false (TyType 1) v /\
  exists data, ToBytes formatx importedx typesx 1 v = Some (Ret data) /\ FromBytes f64to32 pt parsex importedx typesx 9 1 data = Panic.
Proof.
  intros f64to32 pt v. split.
  - unfold v. cbn [of_type whole every typesx N.eqb Pos.eqb fields fst snd all map].
    split; [reflexivity|]. split; [split; [discriminate|split; [reflexivity|split; [reflexivity|repeat constructor]]]|].
    split; [split; [reflexivity|exact Logic.I]|]. split; [reflexivity|]. split; [reflexivity|]. split; [split; [reflexivity|split; [constructor|exact Logic.I]]|].
    split; [split; [reflexivity|split; [reflexivity|split; [split; [reflexivity|split; [reflexivity|constructor]]|reflexivity]]]|]. split; [reflexivity|exact Logic.I].
  - eexists. split; [vm_compute; reflexivity|vm_compute; reflexivity].
Qed.
Print Assumptions C87_panics_refuted.
Example C87_round_trip_case : back importedx typesx false (TyType 1) (VRec (C := bytes) [VScal (SStr [65]); VList []; VNil; VNil; VMap []; VImp []; VNil]) = None
  /\ back importedx typesx false (TyType 1) treex = Some treex.
Proof. vm_compute. split; reflexivity. Qed.
