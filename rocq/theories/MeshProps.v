(** C43: the mesh links imports to exports. *)
From Coq Require Import List NArith Bool Lia.
From Verif Require Import Base BaseLemmas OperationsModel InvokeModel InvokeSpec InvokeProofs MeshModel MeshSpec MeshProofs.
Import ListNotations.
Open Scope N_scope.

(** Three modules.  The first imports [1].[2] and [1].[3] and exports [4].[5]; the second exports [1].[2] twice over with
    different indices and imports [4].[5]; the third exports [1].[2] again and imports it. *)
Definition imp ty ix a b : operation := mkOp ix ty 2 [a] [b].
Definition exp ty ix a b : operation := mkOp ix ty 1 [a] [b].
Definition modA := [imp 1 0 1 2; imp 3 0 1 3; exp 1 7 4 5].
Definition modB := [exp 1 10 1 2; imp 1 4 4 5; exp 1 11 1 2].
Definition modC := [exp 1 12 1 2; imp 1 0 1 2].
Lemma demo_ok : Forall table_ok [modA; modB; modC].
Proof. repeat constructor; cbn; intuition discriminate. Qed.

(** What exactly an import is linked to, for every history of loads: the newest export of its name made before it; otherwise
    the last export of the name in the first table, from its own on, that has one; otherwise nothing. *)
Theorem C43_linked : forall h1 pre op post h2 k, Forall table_ok (h1 ++ (pre ++ op :: post) :: h2) -> op_dir op = 2 -> op_type op = type_no k ->
  exists m, load_all (h1 ++ (pre ++ op :: post) :: h2) = Ret m /\
    linked m (length h1) k (op_index op) = Ret
      (match last_export (op_ns op, op_name op) (concat (numbered 0 h1) ++ exports_in (length h1) pre) with
       | Some d => Some d
       | None => first_group (op_ns op, op_name op) (numbered (length h1) ((pre ++ op :: post) :: h2))
       end).
Proof. exact linked_proof. Qed.
Print Assumptions C43_linked.
Example C43_linked_ex : match load_all [modA; modB; modC] with
  | Ret m => linked m 0 RR 0 = Ret (Some (mkDest 1 11)) /\ linked m 0 RS 0 = Ret None /\ linked m 1 RR 4 = Ret (Some (mkDest 0 7)) /\ linked m 2 RR 0 = Ret (Some (mkDest 2 12))
  | _ => False end.
Proof. vm_compute. auto. Qed.

(** An index no import of the instance names has no handler. *)
Theorem C43_nothing_else : forall h i k idx, Forall table_ok h ->
  (forall t o, nth_error h i = Some t -> In o t -> op_dir o = 2 -> ~ (op_type o = type_no k /\ op_index o = idx)) ->
  exists m, load_all h = Ret m /\ linked m i k idx = Ret None.
Proof. exact unlinked_proof. Qed.
Print Assumptions C43_nothing_else.
Example C43_nothing_else_ex : match load_all [modA; modB; modC] with Ret m => linked m 1 RR 3 = Ret None /\ linked m 0 RR 7 = Ret None | _ => False end.
Proof. vm_compute. auto. Qed.

(** No import is left unlinked while an export of its name exists, and links lead to exports of exactly that name. *)
Theorem C43_complete : forall h i t op k, Forall table_ok h -> nth_error h i = Some t -> In op t -> op_dir op = 2 -> op_type op = type_no k ->
  exists m r, load_all h = Ret m /\ linked m i k (op_index op) = Ret r /\
    (forall d, r = Some d -> In ((op_ns op, op_name op), d) (all_exports h)) /\ (r = None -> forall d, ~ In ((op_ns op, op_name op), d) (all_exports h)).
Proof. exact complete_proof. Qed.
Print Assumptions C43_complete.
Example C43_complete_ex : In (([1],[2]), mkDest 1 11) (all_exports [modA; modB; modC]) /\ (forall d, ~ In (([1],[3]), d) (all_exports [modA; modB; modC])).
Proof. split; [vm_compute; auto|]. intros d H. vm_compute in H. intuition discriminate. Qed.

(** With one export of the name, the order of loading does not matter: every import of it goes there. *)
Theorem C43_any_order : forall h i t op k d, Forall table_ok h -> nth_error h i = Some t -> In op t -> op_dir op = 2 -> op_type op = type_no k ->
  In ((op_ns op, op_name op), d) (all_exports h) -> (forall d', In ((op_ns op, op_name op), d') (all_exports h) -> d' = d) ->
  exists m, load_all h = Ret m /\ linked m i k (op_index op) = Ret (Some d).
Proof. exact unique_proof. Qed.
Print Assumptions C43_any_order.
Example C43_any_order_ex : (match load_all [modB; modA] with Ret m => linked m 0 RR 4 = Ret (Some (mkDest 1 7)) | _ => False end) /\ (match load_all [modA; modB] with Ret m => linked m 1 RR 4 = Ret (Some (mkDest 0 7)) | _ => False end).
Proof. vm_compute. auto. Qed.
(** With several exports it does. *)
Theorem C43_order_with_two_exports_refuted : ~ (forall a b c ma mb da db,
  Forall table_ok [a; b; c] -> load_all [a; b; c] = Ret ma -> load_all [c; b; a] = Ret mb ->
  linked ma 1 RR 0 = Ret (Some da) -> linked mb 1 RR 0 = Ret (Some db) -> d_index da = d_index db).
Proof.
  intro X. specialize (X [exp 1 5 1 2] [imp 1 0 1 2] [exp 1 6 1 2]). eassert (E : 5 = 6); [|discriminate E].
  eapply (fun F => X _ _ (mkDest 0 5) (mkDest 0 6) F eq_refl eq_refl eq_refl eq_refl). repeat constructor; cbn; intuition discriminate.
Qed.
Print Assumptions C43_order_with_two_exports_refuted.

(** Links stay as they are, whatever is loaded later ... *)
Theorem C43_links_stay : forall h h' i t op k m d, Forall table_ok (h ++ h') -> nth_error h i = Some t -> In op t -> op_dir op = 2 -> op_type op = type_no k ->
  load_all h = Ret m -> linked m i k (op_index op) = Ret (Some d) -> exists m', load_all (h ++ h') = Ret m' /\ linked m' i k (op_index op) = Ret (Some d).
Proof. exact sticky_proof. Qed.
Print Assumptions C43_links_stay.
Example C43_links_stay_ex : match load_all [modA; modB], load_all ([modA; modB] ++ [modC]) with
  | Ret m, Ret m' => linked m 0 RR 0 = Ret (Some (mkDest 1 11)) /\ linked m' 0 RR 0 = Ret (Some (mkDest 1 11)) | _, _ => False end.
Proof. vm_compute. auto. Qed.
(** ... while requests made through the mesh itself go to the newest export. *)
Theorem C43_requests : forall h, Forall table_ok h -> exists m, load_all h = Ret m /\ forall x, mesh_request m x = last_export x (all_exports h).
Proof. exact requests_proof. Qed.
Print Assumptions C43_requests.
Example C43_requests_ex : match load_all [modA; modB; modC] with Ret m => mesh_request m ([1],[2]) = Some (mkDest 2 12) /\ mesh_request m ([1],[3]) = None | _ => False end.
Proof. vm_compute. auto. Qed.
(** So after loading a new version of a module, imports linked before still call the old instance, which is closed 5 seconds later. *)
Theorem C43_reload_refuted : ~ (forall old new other m d, Forall table_ok [old; other; new] -> load_all [old; other; new] = Ret m ->
  mesh_request m ([1],[2]) = Some d -> linked m 1 RR 0 = Ret (Some d)).
Proof.
  intro X. specialize (X [exp 1 5 1 2] [exp 1 5 1 2] [imp 1 0 1 2] _ (mkDest 2 5) ltac:(repeat constructor; cbn; intuition discriminate) eq_refl eq_refl). vm_compute in X. discriminate.
Qed.
Print Assumptions C43_reload_refuted.
(** Nor are the kinds compared: an import of a request/response is linked to a stream of that name. *)
Theorem C43_same_kind_refuted : ~ (forall t u o m d, Forall table_ok [t; [o]] -> load_all [t; [o]] = Ret m -> In u t -> op_dir u = 1 ->
  linked m 1 RR (op_index o) = Ret (Some d) -> d = mkDest 0 (op_index u) -> op_type u = op_type o).
Proof.
  intro X. specialize (X [exp 3 5 1 2] (exp 3 5 1 2) (imp 1 0 1 2) _ (mkDest 0 5) ltac:(repeat constructor; cbn; intuition discriminate) eq_refl (or_introl eq_refl) eq_refl eq_refl eq_refl). discriminate.
Qed.
Print Assumptions C43_same_kind_refuted.

(** A request going through a link has the first four bytes of its metadata, the caller's index, replaced by the
    destination's, and the rest untouched; metadata shorter than that panics. *)
Theorem C43_metadata : forall d b, 4 <= len b -> d_index d < 2^32 -> redirect d (Some b) = Ret (Some (be 4 (d_index d) ++ skipn 4 b)).
Proof. exact redirect_proof. Qed.
Print Assumptions C43_metadata.
Example C43_metadata_ex : redirect (mkDest 0 258) (Some [9;9;9;9;0;0;0;7;1]) = Ret (Some [0;0;1;2;0;0;0;7;1]) /\ redirect (mkDest 0 258) None = Ret None.
Proof. vm_compute. auto. Qed.
Theorem C43_short_metadata : forall d b, len b < 4 -> redirect d (Some b) = Panic.
Proof. exact redirect_short_proof. Qed.
Print Assumptions C43_short_metadata.
Example C43_short_metadata_ex : redirect (mkDest 0 258) (Some []) = Panic.
Proof. reflexivity. Qed.
