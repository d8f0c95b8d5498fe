(** The claims about making an instance: C67. *)
From Coq Require Import List NArith Bool Lia.
From Verif Require Import Base BaseLemmas FramesSpec OperationsModel OperationsSpec InvokeModel InvokeSpec InvokeProofs BootModel BootSpec BootProofs.
Import ListNotations.
Open Scope N_scope.

(** C67. The instance of a guest made with the library knows its guest's buffers and its operations, under the numbers the guest uses for them ... *)
Theorem C67_boot : forall {H} (h : list (icall H)) p, few h -> names_ok h -> table_size (operation_list (irun h)) < 2^32 -> at_ops p + table_size (operation_list (irun h)) <= len (mem_ops p) ->
  exists i, NewInstance (library_module (irun h) p) = Done i /\ i_send_ptr i = at_guest p /\ i_recv_ptr i = at_host p /\ i_recv i = [] /\ tells (i_ops i) h.
Proof. intros H h p F N S L. eexists. split; [exact (boot_library H h p F N S L)|]. cbn [i_send_ptr i_recv_ptr i_recv i_ops]. refine (conj eq_refl (conj eq_refl (conj eq_refl _))). exact (tells_list H h F). Qed.
Print Assumptions C67_boot.
Definition boot_demo : list (icall nat) := [ IExport RR [1] [2] (Some 10%nat); IImport RR [7] [8]; IExport RS [1] [3] (Some 20%nat); IImport RR [7] [9] ].
Definition boot_at : placing := mkPlacing 64 128 200 (repeat 0 300) (repeat 5 300).
Example C67_boot_ex : few boot_demo /\ names_ok boot_demo /\ table_size (operation_list (irun boot_demo)) = 66 /\
  NewInstance (library_module (irun boot_demo) boot_at) = Done (mkInstance 64 128 [mkOp 0 1 1 [1] [2]; mkOp 0 3 1 [1] [3]; mkOp 0 1 2 [7] [8]; mkOp 1 1 2 [7] [9]] []).
Proof.
  split; [vm_compute; reflexivity|]. split; [unfold names_ok, boot_demo; repeat (apply Forall_cons; [repeat split; try (apply Forall_cons; [reflexivity|apply Forall_nil]); vm_compute; discriminate|]); apply Forall_nil|].
  split; vm_compute; reflexivity.
Qed.

(** ... and frames such a guest sends in its init function wait in order: up to a hundred, with more the instance never comes to be. *)
Theorem C67_early : forall {H} (h : list (icall H)) p fs cs, few h -> names_ok h -> table_size (operation_list (irun h)) < 2^32 -> at_ops p + table_size (operation_list (irun h)) <= len (mem_ops p) ->
  Forall2 (sending (at_host p)) fs cs -> Forall (fun b => len b < 2^24) fs ->
  NewInstance (mkModule (Some (fun a b c => (fst (guest_init p a b c) ++ cs, true))) true (Some (guest_ops (irun h) p))) =
  if len fs <=? 100 then Done (mkInstance (at_guest p) (at_host p) (operation_list (irun h)) fs) else Blocked.
Proof. exact early_boot. Qed.
Print Assumptions C67_early.
Definition early_send : hostcall * bytes := (HSend 5, repeat 0 128 ++ [0; 0; 2; 8; 9] ++ [77]).
Definition early_module (n : nat) : module := mkModule (Some (fun a b c => (fst (guest_init boot_at a b c) ++ repeat early_send n, true))) true (Some (guest_ops (irun boot_demo) boot_at)).
Example C67_early_ex : sending 128 [8; 9] early_send /\ (exists i, NewInstance (early_module 100) = Done i /\ i_recv i = repeat [8; 9] 100) /\ NewInstance (early_module 101) = Blocked.
Proof. split; [split; [reflexivity|]; exists (repeat 0 128), [77]; split; reflexivity|]. split; [|vm_compute; reflexivity]. destruct (NewInstance (early_module 100)) eqn:Q; vm_compute in Q; try discriminate Q. injection Q as <-. eexists. split; vm_compute; reflexivity. Qed.

(** Whatever the guest does: an instance that came to be has the buffers last announced and the operations of the table last announced. *)
Theorem C67_any : forall m i, NewInstance m = Done i -> i_ops i = decoded (announced (calls_made m)) /\ (i_send_ptr i, i_recv_ptr i) = buffers (calls_made m).
Proof. exact boot_any. Qed.
Print Assumptions C67_any.
Definition twice_module : module := mkModule (Some (fun _ _ _ => ([(HBuffers 1 2, []); (HBuffers 3 4, [])], true))) true (Some (guest_ops (irun boot_demo) boot_at)).
Example C67_any_ex : exists i, NewInstance twice_module = Done i /\ i_send_ptr i = 3 /\ i_recv_ptr i = 4 /\ length (i_ops i) = 4%nat.
Proof. eexists. split; [vm_compute; reflexivity|]. vm_compute. auto. Qed.

(** A module without the init function, or without the send function, is refused with an error; one without the function that asks for the table crashes the host. *)
Theorem C67_refused : forall m, x_init m = None \/ x_send m = false -> NewInstance m = Error.
Proof. intros m H. unfold NewInstance. destruct (x_init m); [|reflexivity]. destruct H as [H|H]; [discriminate H|]. rewrite H. reflexivity. Qed.
Print Assumptions C67_refused.
Example C67_refused_ex : NewInstance (mkModule None true None) = Error /\ NewInstance (mkModule (Some (guest_init boot_at)) false None) = Error.
Proof. split; apply C67_refused; auto. Qed.
Theorem C67_crash : forall m, NewInstance m = Crash <-> x_send m = true /\ x_ops m = None /\
  exists init i, x_init m = Some init /\ wasm_call (mkInstance 0 0 [] []) (init buffer_size buffer_size (1024 * 1024)) = Done i.
Proof. exact boot_crash. Qed.
Print Assumptions C67_crash.
(** "A module that lacks a function of the protocol is refused with an error" is false ... *)
Theorem C67_crash_refuted : exists m, x_init m <> None /\ x_send m = true /\ NewInstance m = Crash.
Proof. exists (mkModule (Some (guest_init boot_at)) true None). split; [discriminate|]. split; reflexivity. Qed.
Print Assumptions C67_crash_refuted.
(** ... and so is "a guest whose table cannot be read is refused": its instance comes to be and knows no operation. *)
Theorem C67_unread_refuted : exists m bs e i, announced (calls_made m) = Some bs /\ FromBytes bs = Fail e /\ NewInstance m = Done i /\ i_ops i = [].
Proof.
  exists (mkModule (Some (guest_init boot_at)) true (Some ([(HOps 0 8, [0; 119; 114; 115; 0; 2; 0; 0; 0; 0])], true))). do 3 eexists.
  split; [vm_compute; reflexivity|]. split; [vm_compute; reflexivity|]. split; vm_compute; reflexivity.
Qed.
Print Assumptions C67_unread_refuted.
