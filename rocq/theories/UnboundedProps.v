(** Property C11: the unbounded buffer. *)
From Coq Require Import List.
From Verif Require Import Base UnboundedModel UnboundedSpec UnboundedProofs.
Import ListNotations.

(** C11. No schedule panics, and what was received so far is a prefix of what was accepted: FIFO order, no
    loss, no duplicate, no invention. *)
Theorem C11_fifo_no_loss_no_panic : forall T es (r : outcome unit (ubuf T)), urun NewUnbounded es r ->
  (exists s, r = Ret s) /\ is_prefix (received es) (accepted es).
Proof.
  intros T es r H. destruct (fifo es r H) as (s & -> & E). split; [eauto|]. exists (pending s). exact E.
Qed.
Print Assumptions C11_fifo_no_loss_no_panic.

(** Nothing is accepted after Dispose. *)
Theorem C11_dispose_rejects : forall T (es1 es2 : list (event T)) r,
  urun NewUnbounded (es1 ++ EvDisposed :: es2) r -> accepted es2 = [].
Proof. intros. eapply dispose_rejects; eauto. Qed.
Print Assumptions C11_dispose_rejects.

(** The consumer sees the channel closed only after Dispose, with everything accepted already received, and
    nothing comes afterwards. *)
Theorem C11_closed_means_drained : forall T (es1 es2 : list (event T)) r,
  urun NewUnbounded (es1 ++ EvClosed :: es2) r ->
  received es1 = accepted es1 /\ accepted es2 = [] /\ received es2 = [] /\ In EvDisposed es1.
Proof. intros. eapply closed_means_drained; eauto. Qed.
Print Assumptions C11_closed_means_drained.

(** A consumer that calls Load after every receive is never stuck: when no method is running, nothing is in
    the channel and no Load is owed, everything accepted has been received, and after a Dispose the channel
    is closed. *)
Theorem C11_consumer_progress : forall T (es : list (event T)) s, urun NewUnbounded es (Ret s) ->
  u_pc s = Idle -> owes_load es = false -> u_chan s = None ->
  received es = accepted es /\ (In EvDisposed es -> u_closed s = true).
Proof. intros T. exact consumer_progress. Qed.
Print Assumptions C11_consumer_progress.

(** Whoever holds the mutex can always go on, and releases it within three steps. *)
Theorem C11_lock_released : forall T (es : list (event T)) s, urun NewUnbounded es (Ret s) -> u_pc s <> Idle ->
  exists es' s', length es' <= 3 /\ urun s es' (Ret s') /\ u_pc s' = Idle.
Proof.
  intros T es s H Hp. destruct (lock_released es s H Hp) as (n & es' & s' & A & B & C & D).
  exists es', s'. rewrite B. auto.
Qed.
Print Assumptions C11_lock_released.

(** A schedule with an overflowing producer, a receive in the middle of a Put, a Dispose and a drain. *)
Example C11_run_ex : exists s, urun (T:=nat) NewUnbounded
  [EvAccepted 1; EvTau; EvTau; EvAccepted 2; EvTau; EvTau; EvTau; EvDisposed; EvReceived 1;
   EvTau; EvLoaded (Some true); EvReceived 2; EvTau; EvLoaded None; EvClosed] (Ret s)
  /\ u_pc s = Idle /\ u_chan s = None /\ u_closed s = true.
Proof.
  eexists. split.
  - eapply (urun_step _ (ABeginPut 1)); [reflexivity|].
    do 2 (eapply (urun_step _ AStep); [reflexivity|]).
    eapply (urun_step _ (ABeginPut 2)); [reflexivity|].
    do 3 (eapply (urun_step _ AStep); [reflexivity|]).
    eapply (urun_step _ ABeginDispose); [reflexivity|].
    eapply (urun_step _ ARecv); [reflexivity|].
    eapply (urun_step _ ABeginLoad); [reflexivity|].
    eapply (urun_step _ AStep); [reflexivity|].
    eapply (urun_step _ ARecv); [reflexivity|].
    eapply (urun_step _ ABeginLoad); [reflexivity|].
    eapply (urun_step _ AStep); [reflexivity|].
    eapply (urun_step _ ARecv); [reflexivity|].
    constructor.
  - cbn. auto.
Qed.
