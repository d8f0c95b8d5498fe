(** The claims about go/invoke: C32 (imports), C33 (exports), C34 (live instances), C48 (linked handlers). *)
From Coq Require Import List NArith Bool Lia.
From Verif Require Import Base BaseLemmas OperationsModel OperationsSpec InvokeModel InvokeSpec InvokeProofs.
Import ListNotations.
Open Scope N_scope.

(** A guest that exports two request/response operations and one stream, and imports a name twice and two more names. *)
Definition demo : list (icall nat) :=
  [ IExport RR [1] [2] (Some 10%nat); IImport RR [7] [8]; IImport RR [7] [9]; IExport RS [1] [3] (Some 20%nat);
    IImport RR [7] [8]; IExport RR [1] [4] (Some 30%nat); IImport FNF [7] [9] ].

(** C32. The index an import returns is the one every later import of that name and kind returns, whatever is
    registered before or in between. *)
Theorem C32_stable : forall {H} (h h' : list (icall H)) k x,
  index_of (h ++ IImport k (fst x) (snd x) :: h') k x = index_of h k x.
Proof. intro H. exact stable_proof. Qed.
Print Assumptions C32_stable.
Example C32_stable_ex : index_of (firstn 2 demo) RR ([7],[9]) = 1 /\ index_of demo RR ([7],[9]) = 1 /\ index_of demo FNF ([7],[9]) = 0.
Proof. vm_compute. auto. Qed.

(** Two different imported names of one kind have different indices. *)
Theorem C32_unambiguous : forall {H} (h : list (icall H)) k x y, few h -> In x (imported k h) -> In y (imported k h) ->
  index_of h k x = index_of h k y -> x = y.
Proof. intro H. exact unambiguous_proof. Qed.
Print Assumptions C32_unambiguous.
Example C32_unambiguous_ex : few demo /\ imported RR demo = [([7],[8]); ([7],[9]); ([7],[8])] /\ index_of demo RR ([7],[8]) <> index_of demo RR ([7],[9]).
Proof. vm_compute. repeat split; discriminate. Qed.

(** Indices are dense: an imported name's index is its position among the distinct names of that kind, in order of first import ... *)
Theorem C32_position : forall {H} (h : list (icall H)) k x, few h -> In x (imported k h) ->
  nth_error (firsts (imported k h)) (N.to_nat (index_of h k x)) = Some x.
Proof. intro H. exact position_proof. Qed.
Print Assumptions C32_position.
Example C32_position_ex : firsts (imported RR demo) = [([7],[8]); ([7],[9])] /\ index_of demo RR ([7],[9]) = 1.
Proof. vm_compute. auto. Qed.

(** ... and a new name gets the next free one. *)
Theorem C32_fresh : forall {H} (h : list (icall H)) k x, few h -> ~ In x (imported k h) -> index_of h k x = len (firsts (imported k h)).
Proof. intro H. exact fresh_proof. Qed.
Print Assumptions C32_fresh.
Example C32_fresh_ex : index_of demo RR ([9],[9]) = 2 /\ index_of demo RC ([9],[9]) = 0.
Proof. vm_compute. auto. Qed.

(** The table the guest publishes lists exactly the imports, each under the index its import returned. *)
Theorem C32_published : forall {H} (h : list (icall H)) k i ns op, few h ->
  (In (mkOp i (type_no k) ImportDir ns op) (operation_list (irun h)) <-> In (ns, op) (imported k h) /\ i = index_of h k (ns, op)).
Proof. intro H. exact advertised_imports_proof. Qed.
Print Assumptions C32_published.
Example C32_published_ex : In (mkOp 1 1 2 [7] [9]) (operation_list (irun demo)) /\ length (operation_list (irun demo)) = 6%nat.
Proof. vm_compute. split; [repeat (first [left; reflexivity|right])|reflexivity]. Qed.

(** C33. Looking up an index yields the handler of the export with that number among those of the kind, and no handler
    (never a panic) for any other index. *)
Theorem C33_lookup : forall {H} (h : list (icall H)) k id, few h ->
  get_handler k (irun h) id = Ret (match nth_error (exported k h) (N.to_nat id) with Some (_, f) => f | None => None end).
Proof. intro H. exact lookup_proof. Qed.
Print Assumptions C33_lookup.
Example C33_lookup_ex : get_handler RR (irun demo) 1 = Ret (Some 30%nat) /\ get_handler RS (irun demo) 0 = Ret (Some 20%nat) /\ get_handler RR (irun demo) 2 = Ret None.
Proof. vm_compute. auto. Qed.

(** The export entries of the published table are exactly the exports, each under the index that looks its handler up. *)
Theorem C33_published : forall {H} (h : list (icall H)) k i ns op, few h ->
  (In (mkOp i (type_no k) ExportDir ns op) (operation_list (irun h)) <-> exists f, nth_error (exported k h) (N.to_nat i) = Some ((ns, op), f)).
Proof. intro H. exact advertised_exports_proof. Qed.
Print Assumptions C33_published.
Example C33_published_ex : In (mkOp 1 1 1 [1] [4]) (operation_list (irun demo)) /\ nth_error (exported RR demo) 1 = Some (([1],[4]), Some 30%nat).
Proof. vm_compute. split; [repeat (first [left; reflexivity|right])|reflexivity]. Qed.

(** An index the table does not list has no handler. *)
Theorem C33_unpublished : forall {H} (h : list (icall H)) k i, few h ->
  (forall ns op, ~ In (mkOp i (type_no k) ExportDir ns op) (operation_list (irun h))) -> get_handler k (irun h) i = Ret None.
Proof. intro H. exact unadvertised_proof. Qed.
Print Assumptions C33_unpublished.
Example C33_unpublished_ex : (forall ns op, ~ In (mkOp 1 3 1 ns op) (operation_list (irun demo))) /\ get_handler RS (irun demo) 1 = Ret None.
Proof. split; [|reflexivity]. intros ns op I. cbn in I. repeat (destruct I as [I|I]; [discriminate I|]). exact I. Qed.

(** The peer decodes the very table, if the names are strings of at most 65535 bytes. *)
Theorem C33_delivered : forall {H} (h : list (icall H)), few h -> names_ok h -> table_size (operation_list (irun h)) < 2^32 ->
  exists bs, OperationList (irun h) = Ret bs /\ FromBytes bs = Ret (operation_list (irun h)).
Proof. intro H. exact published_proof. Qed.
Print Assumptions C33_delivered.
Example C33_delivered_ex : few demo /\ names_ok demo /\ table_size (operation_list (irun demo)) < 100.
Proof. split; [reflexivity|split; [|reflexivity]]. repeat constructor; vm_compute; auto; discriminate. Qed.

(** C34. A handle resolves to the instance it was issued for until it is removed, provided the allocator never reuses
    the address of an object that is still held. *)
Theorem C34_resolves : forall {T} w (h h' : list (lcall T)) inst a, fair w (h ++ LPut inst a :: h') ->
  (forall i, In (LRemove i) h' -> i mod 2 ^ w <> a) -> found w (h ++ LPut inst a :: h') a = Some inst.
Proof. intro T. exact get_put_proof. Qed.
Print Assumptions C34_resolves.
Definition lives : list (lcall nat) := [LPut 1%nat 4096; LPut 2%nat 8192; LRemove 4096; LPut 3%nat 12288; LRemove 77].
Example C34_resolves_ex : fair 64 lives /\ found 64 lives 8192 = Some 2%nat /\ found 64 lives 12288 = Some 3%nat.
Proof. vm_compute. auto 20. Qed.

(** A removed handle is not found until its address is issued again. *)
Theorem C34_removed : forall {T} w (h h' : list (lcall T)) a, a < 2 ^ w -> (forall inst, ~ In (LPut inst a) h') ->
  found w (h ++ LRemove a :: h') a = None.
Proof. intro T. exact get_removed_proof. Qed.
Print Assumptions C34_removed.
Example C34_removed_ex : found 64 (firstn 2 lives) 4096 = Some 1%nat /\ found 64 lives 4096 = None.
Proof. vm_compute. auto. Qed.

(** A handle that was never issued is not found: whatever number a peer sends, nothing is dereferenced. *)
Theorem C34_unissued : forall {T} w (h : list (lcall T)) a, a < 2 ^ w -> (forall inst, ~ In (LPut inst a) h) -> found w h a = None.
Proof. intro T. exact get_never_proof. Qed.
Print Assumptions C34_unissued.
Example C34_unissued_ex : found 64 lives 4097 = None /\ found 64 lives 0 = None.
Proof. vm_compute. auto. Qed.

(** In general, the last Put or Remove that touches the address decides what Get and Remove return. *)
Theorem C34_exact : forall {T} w (h : list (lcall T)) id, found w h id = last_word w h id.
Proof. intro T. exact get_exact_proof. Qed.
Print Assumptions C34_exact.
Theorem C34_remove_returns : forall {T} w (h : list (lcall T)) id, snd (lstep w (lrun w h) (LRemove id)) = inr (found w h id).
Proof. intro T. exact remove_returns_proof. Qed.
Print Assumptions C34_remove_returns.
Example C34_exact_ex : found 64 (LPut 9%nat 4096 :: lives) 4096 = None /\ snd (lstep 64 (lrun 64 lives) (LRemove 8192)) = inr (Some 2%nat).
Proof. vm_compute. auto. Qed.

(** Not so, with a fair allocator: that a removed handle stays invalid.  The collector may hand the address out again,
    and the stale handle then names another instance. *)
Theorem C34_stale_handles_refuted : ~ (forall (h h' : list (lcall nat)) a, fair 64 (h ++ LRemove a :: h') -> found 64 (h ++ LRemove a :: h') a = None).
Proof. intro X. specialize (X [LPut 1%nat 4096] [LPut 2%nat 4096] 4096). vm_compute in X. assert (Y : Some 2%nat = None) by (apply X; auto 20). discriminate Y. Qed.
Print Assumptions C34_stale_handles_refuted.
(** Nor that two Puts are independent when T has size zero: all such objects may have one address, and removing one handle
    loses both. *)
Theorem C34_zero_size_refuted : ~ (forall (x y : unit) a b, found 64 [LPut x a; LPut y b; LRemove b] a = Some x).
Proof. intro X. specialize (X tt tt 4096 4096). vm_compute in X. discriminate X. Qed.
Print Assumptions C34_zero_size_refuted.
(** Nor that only an issued number resolves when uintptr has 32 bits (a wasm guest): the upper half of the handle is ignored. *)
Theorem C34_narrow_pointers_refuted : ~ (forall (h : list (lcall nat)) id, fair 32 h -> (forall inst, ~ In (LPut inst id) h) -> found 32 h id = None).
Proof.
  intro X. specialize (X [LPut 1%nat 4096] (2^32 + 4096)). vm_compute in X. assert (Y : Some 1%nat = None); [|discriminate Y]. apply X; [auto 20|].
  intros inst [E|[]]. discriminate E.
Qed.
Print Assumptions C34_narrow_pointers_refuted.

(** C48. After any registrations under indices below 2^32-1, a lookup yields the handler registered last under the index,
    and none for an index never used; no registration panics and none disturbs another index. *)
Theorem C48_last_set : forall {H} (hs : list (N * option H)) j, Forall (fun p => fst p < 2^32 - 1) hs ->
  exists l, set_all [] hs = Ret l /\ linked_handler l j = Ret (last_set hs j).
Proof. intro H. exact linked_proof. Qed.
Print Assumptions C48_last_set.
Definition links : list (N * option nat) := [(3, Some 1%nat); (0, Some 2%nat); (3, Some 3%nat); (1, None)].
Example C48_last_set_ex : (do l <- set_all [] links ; linked_handler l 3) = Ret (Some 3%nat) /\ (do l <- set_all [] links ; linked_handler l 2) = Ret None.
Proof. vm_compute. auto. Qed.

(** The one remaining index always panics: index+1 wraps to 0 and nothing is appended. *)
Theorem C48_top_index : forall {H} (l : list (option H)) h, len l < 2^32 -> set_handler l (2^32 - 1) h = Panic.
Proof. intro H. exact linked_wrap_proof. Qed.
Print Assumptions C48_top_index.
Theorem C48_every_index_refuted : ~ (forall (i : N) (h : option nat), i < 2^32 -> exists l, set_handler [] i h = Ret l).
Proof. intro X. destruct (X (2^32 - 1) None) as [l E]; [reflexivity|]. rewrite C48_top_index in E by reflexivity. discriminate E. Qed.
Print Assumptions C48_every_index_refuted.
