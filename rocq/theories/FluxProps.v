(** C28, C29: fluxes and mapped fluxes. *)
From Coq Require Import List Arith ZArith Bool Permutation.
From Verif Require Import MonoModel FluxModel FluxSpec FluxProofs.
Import ListNotations.

(** ** C28 *)

(** One thread, any calls in any order from the source, the callbacks or anywhere else: what the callbacks saw is at every
    moment a prefix of what the calls up to the first closing one deliver, and all of it whenever user code runs. *)
Theorem C28_deliveries : forall {T E} (g : fcfg) st stack (tr : list (fevent T E)), freach true g st [stack] tr ->
  (exists d, expected g (fcalls tr) = delivered tr ++ d) /\
  (match stack with u :: _ => is_user u = true | [] => False end -> delivered tr = expected g (fcalls tr)).
Proof. intros T E. exact (@deliveries_proof T E). Qed.
Print Assumptions C28_deliveries.

(** That is a number of items followed by at most one completion or error. *)
Theorem C28_well_formed : forall {T E} (g : fcfg) (l : list (fcall T E)), well_formed (expected g l) = true.
Proof. intros T E. exact (@expected_wf T E). Qed.
Print Assumptions C28_well_formed.

Definition all_on : fcfg := mkF true true true true true false.
(** OnNext of the first item calls Complete, the source carries on with an item and an error. *)
Definition ex_flux : list (fmove nat nat) :=
  [NCall 0 FSubscribe; NStep 0; NCall 0 (FNext 1); NStep 0; NStep 0; NStep 0; NCall 0 FComplete; NStep 0; NStep 0; NStep 0; NRet 0;
   NStep 0; NStep 0; NRet 0; NStep 0; NRet 0; NStep 0; NCall 0 (FNext 2); NStep 0; NCall 0 (FError 3); NStep 0; NRet 0;
   NStep 0; NStep 0; NRet 0].
Example C28_ex : exists st tr, freach true all_on st [[FUser]] tr /\
  fcalls tr = [FSubscribe; FNext 1; FComplete; FNext 2; FError 3] /\ delivered tr = [VNext 1; VComplete].
Proof.
  destruct (@fexec nat nat true all_on ex_flux (flux_create, [[FUser]], [])) as [[[st ths] tr]|] eqn:X; [|vm_compute in X; discriminate].
  exists st, tr. assert (R : freach true all_on st ths tr) by (eapply fexec_sound; [apply (f_init true all_on 1)|exact X]).
  vm_compute in X. injection X as <- <- <-. repeat split; exact R || reflexivity.
Qed.

(** With two threads an item can follow the completion: [closed] is not guarded. *)
Theorem C28_two_threads_refuted : exists st ths tr, freach false (mkF true true true true true true) st ths tr /\ length ths = 2 /\
  delivered tr = [VComplete; @VNext nat nat 1].
Proof.
  destruct (@fexec nat nat false (mkF true true true true true true)
    [NCall 0 FSubscribe; NStep 0; NRet 0; NStep 0; NCall 1 (FNext 1); NStep 1; NCall 0 FComplete; NStep 0; NStep 0; NStep 0; NStep 1; NStep 1]
    (flux_create, [[FUser]; [FUser]], [])) as [[[st ths] tr]|] eqn:X; [|vm_compute in X; discriminate].
  exists st, ths, tr. assert (R : freach false (mkF true true true true true true) st ths tr) by (eapply fexec_sound; [apply (f_init false _ 2)|exact X]).
  vm_compute in X. injection X as <- <- <-. repeat split; exact R || reflexivity.
Qed.
Print Assumptions C28_two_threads_refuted.

(** A mapped flux: every accepted item becomes the transformed item or the transform's error, in order. *)
Theorem C28_mapped : forall {T E D} (tx : T -> D + E) g kr knr st stack tr, freach true (source_cfg g kr knr) st [stack] tr ->
  (exists d, map_expected tx g (fcalls tr) = delivered (flat_map (fmap_event tx g) tr) ++ d) /\
  (match stack with u :: _ => is_user u = true | [] => False end -> delivered (flat_map (fmap_event tx g) tr) = map_expected tx g (fcalls tr)).
Proof. intros T E D. exact (@mapped_deliveries_proof T E D). Qed.
Print Assumptions C28_mapped.
Example C28_mapped_ex : exists st tr, freach true (source_cfg all_on true false) st [[FUser]] tr /\
  delivered (flat_map (fmap_event (fun n => @inl nat nat (n + 10)) all_on) tr) = [VNext 11; VComplete].
Proof.
  destruct (@fexec nat nat true all_on ex_flux (flux_create, [[FUser]], [])) as [[[st ths] tr]|] eqn:X; [|vm_compute in X; discriminate].
  exists st, tr. assert (R : freach true all_on st ths tr) by (eapply fexec_sound; [apply (f_init true all_on 1)|exact X]).
  vm_compute in X. injection X as <- <- <-. repeat split; exact R || reflexivity.
Qed.

(** So it keeps to "items, then at most one end" exactly when nothing follows a failed transformation: the source is not
    closed by one. *)
Theorem C28_mapped_well_formed_iff : forall {T E D} (tx : T -> D + E) g, k_next g = true /\ k_complete g = true /\ k_error g = true ->
  forall l : list (fcall T E), well_formed (map_expected tx g l) = true <-> silent_after tx (upto l) = true.
Proof. intros T E D. exact (@mapped_wf_proof T E D). Qed.
Print Assumptions C28_mapped_well_formed_iff.
Theorem C28_mapped_refuted : exists st tr, freach true (source_cfg all_on true false) st [[FUser]] tr /\
  delivered (flat_map (fmap_event (fun n => if n =? 1 then @inr nat nat 99 else inl n) all_on) tr) = [VError 99; VComplete].
Proof.
  destruct (@fexec nat nat true all_on ex_flux (flux_create, [[FUser]], [])) as [[[st ths] tr]|] eqn:X; [|vm_compute in X; discriminate].
  exists st, tr. assert (R : freach true all_on st ths tr) by (eapply fexec_sound; [apply (f_init true all_on 1)|exact X]).
  vm_compute in X. injection X as <- <- <-. repeat split; exact R || reflexivity.
Qed.
Print Assumptions C28_mapped_refuted.

(** ** C29 *)

(** Once nothing is running, Finally has run once if the source ended the subscription, and once for every Cancel. *)
Theorem C29_finally : forall {T E} (g : fcfg) st (tr : list (fevent T E)), freach true g st [[FUser]] tr ->
  Permutation (finals tr) (expected_finals g (fcalls tr)).
Proof. intros T E. exact (@finals_proof T E). Qed.
Print Assumptions C29_finally.

(** It has run exactly once if and only if the source ended the subscription and nobody cancelled, or there was exactly one
    Cancel before any end. *)
Theorem C29_once_iff : forall {T E} (g : fcfg) st (tr : list (fevent T E)), freach true g st [[FUser]] tr -> k_finally g = true ->
  length (finals tr) = 1 <-> finally_once (fcalls tr).
Proof. intros T E. exact (@finally_once_proof T E). Qed.
Print Assumptions C29_once_iff.
Example C29_ex : exists st (tr : list (fevent nat nat)), freach true all_on st [[FUser]] tr /\ finals tr = [SigComplete] /\ finally_once (fcalls tr).
Proof.
  destruct (@fexec nat nat true all_on ex_flux (flux_create, [[FUser]], [])) as [[[st ths] tr]|] eqn:X; [|vm_compute in X; discriminate].
  exists st, tr. assert (R : freach true all_on st ths tr) by (eapply fexec_sound; [apply (f_init true all_on 1)|exact X]).
  vm_compute in X. injection X as <- <- <-. repeat split; exact R || reflexivity.
Qed.

(** Cancel after completion runs it a second time. *)
Theorem C29_cancel_after_complete_refuted : exists st (tr : list (fevent nat nat)), freach true all_on st [[FUser]] tr /\
  fcalls tr = [FSubscribe; FNext 1; FComplete; FNext 2; FError 3; FCancel] /\ finals tr = [SigComplete; SigCancel].
Proof.
  destruct (@fexec nat nat true all_on (ex_flux ++ [NCall 0 FCancel; NStep 0; NStep 0; NStep 0; NRet 0]) (flux_create, [[FUser]], [])) as [[[st ths] tr]|] eqn:X; [|vm_compute in X; discriminate].
  exists st, tr. assert (R : freach true all_on st ths tr) by (eapply fexec_sound; [apply (f_init true all_on 1)|exact X]).
  vm_compute in X. injection X as <- <- <-. repeat split; exact R || reflexivity.
Qed.
Print Assumptions C29_cancel_after_complete_refuted.

(** After Close it never runs, whatever the source does. *)
Theorem C29_close_refuted : exists st (tr : list (fevent nat nat)), freach true all_on st [[FUser]] tr /\
  fcalls tr = [FSubscribe; FClose; FComplete] /\ finals tr = [].
Proof.
  destruct (@fexec nat nat true all_on [NCall 0 FSubscribe; NStep 0; NCall 0 FClose; NStep 0; NCall 0 FComplete; NStep 0; NRet 0; NStep 0; NStep 0; NRet 0]
    (flux_create, [[FUser]], [])) as [[[st ths] tr]|] eqn:X; [|vm_compute in X; discriminate].
  exists st, tr. assert (R : freach true all_on st ths tr) by (eapply fexec_sound; [apply (f_init true all_on 1)|exact X]).
  vm_compute in X. injection X as <- <- <-. repeat split; exact R || reflexivity.
Qed.
Print Assumptions C29_close_refuted.

(** A mapped flux runs it once more for every item it cannot transform. *)
Theorem C29_mapped : forall {T E D} (tx : T -> D + E) g kr knr st tr, freach true (source_cfg g kr knr) st [[FUser]] tr ->
  Permutation (finals (flat_map (fmap_event tx g) tr))
    (expected_finals g (fcalls tr) ++ (if k_finally g then repeat SigError (length (failing tx (fcalls tr))) else [])).
Proof. intros T E D. exact (@mapped_finals_proof T E D). Qed.
Print Assumptions C29_mapped.
Theorem C29_mapped_refuted : exists st tr, freach true (source_cfg all_on true false) st [[FUser]] tr /\
  finals (flat_map (fmap_event (fun n => if n =? 1 then @inr nat nat 99 else inl n) all_on) tr) = [SigError; SigComplete].
Proof.
  destruct (@fexec nat nat true all_on ex_flux (flux_create, [[FUser]], [])) as [[[st ths] tr]|] eqn:X; [|vm_compute in X; discriminate].
  exists st, tr. assert (R : freach true all_on st ths tr) by (eapply fexec_sound; [apply (f_init true all_on 1)|exact X]).
  vm_compute in X. injection X as <- <- <-. repeat split; exact R || reflexivity.
Qed.
Print Assumptions C29_mapped_refuted.

(** Block returns exactly when Finally runs exactly once; it waits for ever after a Close without an end, and a second
    Finally closes its channel again, which panics. *)
Theorem C29_block : forall {T E} (g : fcfg) st (tr : list (fevent T E)), freach true g st [[FUser]] tr -> k_finally g = true ->
  (block_after tr = Returned <-> finally_once (fcalls tr)) /\
  (block_after tr = Waiting <-> cancels (fcalls tr) = 0 /\ (closer (fcalls tr) = None \/ closer (fcalls tr) = Some FClose)).
Proof. intros T E. exact (@block_proof T E). Qed.
Print Assumptions C29_block.

(** Notify callbacks: none runs before a closing call and none twice.  Once nothing is running all have run if the source
    ended the subscription; if it was cancelled or closed, only those registered afterwards.  Each gets the signal of the
    end, except that one registered after the closing call may get SignalComplete. *)
Theorem C29_notify : forall {T E} (g : fcfg) st stack (tr : list (fevent T E)), freach true g st [stack] tr ->
  match closer (fcalls tr) with
  | None => fnotified tr = []
  | Some c =>
    NoDup (fnotified tr) /\
    (stack = [FUser] -> Permutation (fnotified tr)
       (match c with
        | FComplete | FError _ => seq 0 (fregistered (fcalls tr))
        | _ => seq (fearly (fcalls tr)) (fregistered (fcalls tr) - fearly (fcalls tr))
        end)) /\
    (forall k s, In (VNotify k s) tr -> s = fsignal (fcalls tr) \/ (s = SigComplete /\ fearly (fcalls tr) <= k))
  end.
Proof.
  intros T E g st stack tr R. assert (X := fnotify_proof g st stack tr R). destruct (closer (fcalls tr)) as [c|]; [|exact X].
  destruct X as (X1 & X2 & X3). split; [exact X1|]. split; [|exact X3]. intro Hs. specialize (X2 Hs). destruct c; exact X2.
Qed.
Print Assumptions C29_notify.
(** Cancelled: the callback registered before is never told, the one registered after is told "complete". *)
Theorem C29_notify_cancel_refuted : exists st (tr : list (fevent nat nat)), freach true all_on st [[FUser]] tr /\
  fcalls tr = [FSubscribe; FNotify; FCancel; FNotify] /\ filter (fun e => match e with VNotify _ _ => true | _ => false end) tr = [VNotify 1 SigComplete].
Proof.
  destruct (@fexec nat nat true all_on [NCall 0 FSubscribe; NStep 0; NRet 0; NStep 0; NStep 0; NRet 0; NCall 0 FNotify; NStep 0; NCall 0 FCancel; NStep 0; NStep 0; NStep 0; NRet 0;
    NCall 0 FNotify; NStep 0; NStep 0; NRet 0] (flux_create, [[FUser]], [])) as [[[st ths] tr]|] eqn:X; [|vm_compute in X; discriminate].
  exists st, tr. assert (R : freach true all_on st ths tr) by (eapply fexec_sound; [apply (f_init true all_on 1)|exact X]).
  vm_compute in X. injection X as <- <- <-. repeat split; exact R || reflexivity.
Qed.
Print Assumptions C29_notify_cancel_refuted.
