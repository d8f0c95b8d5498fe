(** C63: frames pass through a host instance in order, and when they get stuck. *)
From Coq Require Import List Bool Arith Lia.
From Verif Require Import PipeModel PipeSpec PipeProofs.
Import ListNotations.

(** ** Order *)

(** The guest is given the frames that were sent, in their order and each once, and the frames the guest sends are handled in their order and each once: what is not yet
    there is in the guest's memory, in sendLoop's hand, or in a channel. *)
Theorem C63_order : forall F (fits : list F -> F -> bool) tr s, piped fits tr s ->
  (exists hand, length hand <= 1 /\ p_sent s = p_given s ++ p_buf s ++ hand ++ p_send s) /\ p_received s = p_handled s ++ p_recv s /\ length (p_send s) <= 100 /\ length (p_recv s) <= 100.
Proof.
  intros F fits tr s R. destruct (piped_pinv fits tr s R) as [A B C D _ _ _ _]. split; [|split; [exact B|split; assumption]].
  exists (in_hand (p_sloop s)). split; [destruct (p_sloop s) as [| | |[?|]|? [?|]|]; cbn; lia|exact A].
Qed.
Print Assumptions C63_order.

(** ** Getting stuck *)

(** An open instance goes on by itself until everything sent has reached the guest and everything received is handled, or until the guest waits for room in the one channel
    while the handling of a frame waits for room in the other. *)
Theorem C63_stuck_iff : forall F (fits : list F -> F -> bool) tr s, piped fits tr s -> ~ In EClose tr -> stuck fits s <-> idle s \/ deadlocked s.
Proof.
  intros F fits tr s R N. assert (I := piped_pinv fits tr s R). destruct (open_runs fits tr new_pipe s eq_refl eq_refl N R) as [Cl Cr]. split; [exact (stuck_open fits s I Cl Cr)|].
  intros [X|X]; [exact (idle_stuck fits s I Cl X)|exact (deadlock_stuck fits s Cl X)].
Qed.
Print Assumptions C63_stuck_iff.
(** Left alone it gets there, whatever the order of the steps. *)
Theorem C63_settles : forall F (fits : list F -> F -> bool) s, (forall l s', forallb own l = true -> pruns fits s l = Some s' -> length l <= S (work s)) /\
  exists l s', forallb own l = true /\ pruns fits s l = Some s' /\ stuck fits s'.
Proof. intros F fits s. split; [intros l s' O R; exact (own_runs fits l s s' O R)|exact (settles fits (S (work s)) s (le_n _))]. Qed.
Print Assumptions C63_settles.
(** If the handling of frames does not send from within recvLoop, everything arrives. *)
Theorem C63_arrives : forall F (fits : list F -> F -> bool) tr s l s', piped fits tr s -> ~ In EClose tr -> (forall g, ~ In (EHandler g) tr) ->
  forallb own l = true -> pruns fits s l = Some s' -> stuck fits s' -> idle s'.
Proof.
  intros F fits tr s l s' R N H O R' St. assert (P : piped fits (tr ++ l) s') by (unfold piped in *; rewrite pruns_app, R; exact R').
  assert (N' : ~ In EClose (tr ++ l)) by (intro X; apply in_app_or in X as [X|X]; [exact (N X)|exact (own_no_close l O X)]).
  destruct (proj1 (C63_stuck_iff F fits (tr ++ l) s' P N') St) as [X|X]; [exact X|exfalso]. destruct X as (_ & (f & g & X) & _). revert X. apply (no_handler_send fits (tr ++ l) s' P).
  intros g' X. apply in_app_or in X as [X|X]; [exact (H g' X)|exact (own_no_handler l g' O X)].
Qed.
Print Assumptions C63_arrives.
(** A deadlock is for ever: all that happens is that further senders come to wait. *)
Theorem C63_deadlock : forall F (fits : list F -> F -> bool) tr s l s', piped fits tr s -> ~ In EClose tr -> deadlocked s -> ~ In EClose l -> pruns fits s l = Some s' ->
  deadlocked s' /\ forall a, In a l -> exists g, a = EUser g.
Proof. intros F fits tr s l s' R N D N' R'. destruct (open_runs fits tr new_pipe s eq_refl eq_refl N R) as [Cl _]. exact (deadlock_runs fits l s s' Cl D N' R'). Qed.
Print Assumptions C63_deadlock.
(** It does come about: a guest that answers one call with 202 frames, and a subscriber that asks for one more on each. *)
Definition ex_deadlock : list (paction nat) :=
  [EUser 0; PSender 0; PLoop; PWrite; PLoop; EGuest (seq 1 202)] ++ flat_map (fun i => [PPush; PRecv; EHandler i; PHandlerSend; PHandled]) (seq 1 100) ++ [PPush; PRecv; EHandler 101] ++ repeat PPush 100.
Theorem C63_never_stuck_refuted : exists s, piped (fun _ _ => true) ex_deadlock s /\ ~ In EClose ex_deadlock /\ deadlocked s /\ p_sloop s = SHost [202] None /\ p_given s = [0] /\ p_handled s = seq 1 101.
Proof.
  destruct (pruns (fun _ _ => true) new_pipe ex_deadlock) as [s|] eqn:E; [|vm_compute in E; discriminate E]. exists s. split; [exact E|]. split.
  - assert (X : existsb (fun a => match a with EClose => true | _ => false end) ex_deadlock = false) by (vm_compute; reflexivity). intro Y. rewrite (proj2 (existsb_exists _ ex_deadlock)) in X; [discriminate X|]. exists EClose. split; [exact Y|reflexivity].
  - vm_compute in E. injection E as <-. split; [|repeat split; vm_compute; reflexivity]. split; [do 3 eexists; reflexivity|]. split; [do 2 eexists; reflexivity|]. split; reflexivity.
Qed.
Print Assumptions C63_never_stuck_refuted.

(** ** Closing *)

(** No panic without Close. *)
Theorem C63_no_panic : forall F (fits : list F -> F -> bool) tr s, piped fits tr s -> ~ In EClose tr -> p_crashed s = false.
Proof. intros F fits tr s R N. exact (proj2 (open_runs fits tr new_pipe s eq_refl eq_refl N R)). Qed.
Print Assumptions C63_no_panic.
(** What a closed instance comes to when left alone is decided: it panics unless nothing at all was on its way to the guest or from the guest or handler into a channel;
    then both loops end with everything handled. *)
Theorem C63_close_iff : forall F (fits : list F -> F -> bool) tr s l s', piped fits tr s -> p_closed s = true -> p_crashed s = false -> forallb own l = true -> pruns fits s l = Some s' -> stuck fits s' ->
  (p_crashed s' = false <-> quiet s) /\ (quiet s -> p_sloop s' = SEnded /\ p_rloop s' = REnded /\ p_given s' = p_sent s' /\ p_handled s' = p_received s').
Proof.
  intros F fits tr s l s' R Cl Cr O R' St. assert (I := pinv_runs fits l s s' (piped_pinv fits tr s R) R'). assert (Cl' := closed_runs fits l s s' Cl R'). destruct (own_closed fits l s s' Cl O R' Cr) as [A B].
  split; [split|].
  - intro C. apply (B C). exact (proj1 (stuck_closed fits s' I Cl' C St)).
  - intro Q. exact (proj1 (A Q)).
  - intro Q. exact (proj2 (stuck_closed fits s' I Cl' (proj1 (A Q)) St)).
Qed.
Print Assumptions C63_close_iff.
(** Once sendLoop holds a frame after Close nothing can prevent the panic, not even further frames. *)
Theorem C63_close_busy : forall F (fits : list F -> F -> bool) tr s l s', piped fits tr s -> p_closed s = true -> busy s -> pruns fits s l = Some s' -> stuck fits s' -> p_crashed s' = true.
Proof.
  intros F fits tr s l s' R Cl Bz R' St. destruct (busy_runs fits l s s' Cl Bz R') as [C|[Cl' B']]; [exact C|]. destruct (p_crashed s') eqn:C; [reflexivity|exfalso].
  destruct (busy_not_stuck fits s' Cl' C B') as (a & s'' & Oa & D).
  - intro E. destruct (stuck_closed fits s' (pinv_runs fits l s s' (piped_pinv fits tr s R) R') Cl' C St) as [[X _] _]. exact (X B').
  - rewrite (St a Oa) in D. discriminate D.
Qed.
Print Assumptions C63_close_busy.
(** A frame sent after Close panics. *)
Theorem C63_send_closed : forall F (fits : list F -> F -> bool) s g, p_closed s = true -> p_crashed s = false -> exists s', pruns fits s [EUser g; PSender (length (p_pending s))] = Some s' /\ p_crashed s' = true.
Proof.
  intros F fits s g Cl Cr. destruct s as [q r cl sl rl pe b cr l1 l2 l3 l4]. cbn in Cl, Cr. subst. cbn [p_pending pruns pstep]. rewrite nth_error_app2, Nat.sub_diag by lia. cbn [nth_error]. eexists. split; reflexivity.
Qed.
Print Assumptions C63_send_closed.

(** Two frames out (the second does not fit behind the first), three back, of which two are handled before the guest returns; all arrives. *)
Definition ex_pipe : list (paction nat) :=
  [EUser 10; EUser 11; PSender 1; PSender 0; PLoop; PWrite; PLoop; PWrite; EGuest [1; 2]; PPush; PRecv; PPush; EHandler 12; PHandlerSend; PHandled; PRecv; PPush; PReturn].
Example C63_ex : exists s l s', piped (fun b _ => match b with [] => true | _ => false end) ex_pipe s /\ ~ In EClose ex_pipe /\ forallb own l = true /\ pruns (fun b _ => match b with [] => true | _ => false end) s l = Some s' /\
  p_given s = [11] /\ idle s' /\ p_given s' = [11; 10; 12] /\ p_handled s' = [1; 2].
Proof.
  destruct (pruns (fun b _ => match b with [] => true | _ => false end) new_pipe ex_pipe) as [s|] eqn:E; [|vm_compute in E; discriminate E]. exists s, [PLoop; PWrite; PReturn; PHandled; PLoop; PReturn].
  destruct (pruns (fun b _ => match b with [] => true | _ => false end) s [PLoop; PWrite; PReturn; PHandled; PLoop; PReturn]) as [s'|] eqn:E'; [|vm_compute in E; injection E as <-; vm_compute in E'; discriminate E'].
  exists s'. split; [exact E|]. vm_compute in E. injection E as <-. vm_compute in E'. injection E' as <-. split; [intro X; cbn in X; repeat (destruct X as [X|X]; [discriminate X|]); exact X|]. repeat split.
Qed.
(** Close on an instance at rest is clean; with one frame in the channel it is not. *)
Example C63_ex_close : (exists s, piped (fun _ _ => true) [@EClose nat; PLoop; PRecv] s /\ p_crashed s = false /\ p_sloop s = SEnded) /\
  (exists s, piped (fun _ _ => true) [EUser 1; PSender 0; EClose; PLoop; PWrite; PLoop] s /\ p_crashed s = true /\ p_given s = []).
Proof. split; eexists; (split; [reflexivity|]); repeat split. Qed.
