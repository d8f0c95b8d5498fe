(** C62: the life of a TCP server. *)
From Coq Require Import List Bool Arith Lia.
From Verif Require Import ServerModel ServerSpec ServerProofs.
Import ListNotations.

(** ** Closing *)

(** Once the server has been told to stop - by Close, by its context, or by leaving Listen - its listener is closed, it accepts no further connection, and
    every connection it had taken on is closed, unless the acceptor's onClose was called for it. *)
Theorem C62_stop : forall tr s, ran tr s -> late tr -> stopped tr s ->
  sv_listener s = Some false /\ sstep s AConn = None /\ (forall c k, taken s c k -> k_open k = false \/ In (ARemove c) tr).
Proof.
  intros tr s R L S0. assert (I := ran_sinv tr s R L). destruct (stopped_done tr s R L S0) as [D B]. assert (Ls := v_listener _ _ I). rewrite B, D in Ls. split; [exact Ls|]. split; [|exact (v_closed _ _ I D)].
  destruct s as [done l reg cs pc ctx w]. cbn in *. subst l. destruct pc; reflexivity.
Qed.
Print Assumptions C62_stop.

(** A connection that is not served is the last one accepted; Listen is just about to take it on, or the server was stopped in the meantime.  It is open. *)
Theorem C62_unserved : forall tr s, ran tr s -> late tr -> forall c k, nth_error (sv_conns s) c = Some k -> k_started k = false ->
  S c = length (sv_conns s) /\ (sv_listen s = LPut c \/ sv_listen s = LSpawn c \/ sv_done s = true) /\ (sv_listen s <> LSpawn c -> k_open k = true).
Proof.
  intros tr s R L c k E S0. assert (I := ran_sinv tr s R L). destruct (v_last _ _ I c k E S0) as [A [[B|B]|B]]; (split; [exact A|split; [tauto|exact (v_open _ _ I c k E S0)]]).
Qed.
Print Assumptions C62_unserved.

(** A connection that is served is served once, the acceptor is called for it once, and its end closes it. *)
Theorem C62_served : forall tr s, ran tr s -> forall c k, nth_error (sv_conns s) c = Some k ->
  k_accepted k = (if k_started k then 1 else 0) /\ (k_ended k = true -> k_started k = true /\ k_open k = false).
Proof. intros tr s R c k E. exact (g_conn _ _ (ran_ginv tr s R) c k E). Qed.
Print Assumptions C62_served.

(** ** Stopping *)

(** A cancelled context reaches the server once Listen accepts connections: until the server is closed the watching goroutine is there to close it ... *)
Theorem C62_context : forall tr s, ran tr s -> late tr -> accepting (sv_listen s) -> sv_listen s <> LReturned (Some EListen) -> sv_ctx s = true -> sv_done s = false ->
  exists s', sstep s AWatchCtx = Some s' /\ sv_done s' = true /\ sv_listener s' = Some false.
Proof.
  intros tr s R L A N C D. assert (I := ran_sinv tr s R L).
  assert (B : before (sv_listen s) = false) by (destruct (sv_listen s) as [| |[|]| | | | | |[[|]|]]; cbn in A; try contradiction; try reflexivity; contradiction N; reflexivity).
  assert (W : sv_watcher s = true) by (apply (v_watch _ _ I B); [intro X; rewrite X in A; exact A|exact D]). assert (Ls := v_listener _ _ I). rewrite B, D in Ls.
  destruct s as [done l reg cs pc ctx w]. cbn in *. subst. eexists. split; [reflexivity|]. split; reflexivity.
Qed.
Print Assumptions C62_context.
(** ... and once it is closed Listen returns within five steps, none of which is ever missing and which nothing else delays. *)
Theorem C62_returns : forall tr s, ran tr s -> late tr -> sv_done s = true -> accepting (sv_listen s) ->
  steps_left (sv_listen s) <= 5 /\
  (steps_left (sv_listen s) = 0 <-> exists e, sv_listen s = LReturned e) /\
  (steps_left (sv_listen s) <> 0 -> exists a s', of_listen a = true /\ sstep s a = Some s') /\
  (forall a s', sstep s a = Some s' -> if of_listen a then steps_left (sv_listen s') < steps_left (sv_listen s) else sv_listen s' = sv_listen s).
Proof.
  intros tr s R L D A. assert (I := ran_sinv tr s R L). assert (Ls := v_listener _ _ I). destruct s as [done l reg cs pc ctx w]. cbn [sv_done sv_listen sv_listener] in *. subst done. split; [destruct pc; cbn; lia|]. split; [|split].
  - split; [|intros [e ->]; reflexivity]. destruct pc; cbn; intro X; try discriminate X; try contradiction. exists e. reflexivity.
  - intro N. destruct pc; cbn in N, A; try contradiction; try (exists AListenStep; eexists; split; reflexivity); exists AEnd; eexists; split; reflexivity.
  - intros a s' E. destruct a as [|ok| | | | | | | | | |c|c]; cbn [of_listen].
    1-7: destruct pc as [| |[|]| | | | | |]; cbn in A; try contradiction; cbn in E; try discriminate E; try (cbn in Ls; rewrite Ls in E; discriminate E); injection E as <-; cbn; lia.
    all: cbn in E.
    + injection E as <-. reflexivity.
    + destruct ctx; [discriminate E|]. injection E as <-. reflexivity.
    + destruct (w && ctx); [|discriminate E]. injection E as <-. reflexivity.
    + destruct (w && true); [|discriminate E]. injection E as <-. reflexivity.
    + destruct (nth_error cs c) as [k|]; [|discriminate E]. destruct (k_started k && negb (k_ended k)); [|discriminate E]. injection E as <-. reflexivity.
    + injection E as <-. reflexivity.
Qed.
Print Assumptions C62_returns.

(** There is a reason for what Listen returns. *)
Theorem C62_result : forall tr s e, ran tr s -> sv_listen s = LReturned e -> justified e tr.
Proof. intros tr s e R E. apply (g_result _ _ (ran_ginv tr s R) e). right. exact E. Qed.
Print Assumptions C62_result.

(** ** The registry *)

(** As long as the server is not closed and onClose has not been called, the registered transports are exactly those of all connections accepted so far - of
    those that have ended, too - but for the one Listen is about to register. *)
Theorem C62_registry : forall tr s, ran tr s -> sv_done s = false -> (forall c, ~ In (ARemove c) tr) ->
  exists m, sv_reg s = Some m /\ forall c, In c m <-> c < length (sv_conns s) /\ sv_listen s <> LPut c.
Proof.
  intros tr s R D N. assert (L : late tr) by (destruct (early_or_late tr) as [E|L]; [assert (X := e_done _ (early_einv tr s R E)); congruence|exact L]). assert (I := ran_sinv tr s R L).
  destruct (v_reg _ _ I D) as (m & Q & M1 & M2). exists m. split; [exact Q|]. intro c. split.
  - intro X. destruct (M2 c X) as (k & E & T). split; [apply nth_error_Some; congruence|]. intro P. destruct T as [T|T]; [|congruence]. destruct (v_held _ _ I c) as (k' & E' & S' & _); [left; left; exact P|]. congruence.
  - intros [Lc P]. destruct (nth_error (sv_conns s) c) as [k|] eqn:E; [|apply nth_error_None in E; lia]. destruct (M1 c k) as [X|X]; [|exact X|contradiction (N c X)]. split; [exact E|].
    destruct (k_started k) eqn:S0; [left; reflexivity|right]. destruct (v_last _ _ I c k E S0) as [_ [[X|X]|X]]; [contradiction|exact X|congruence].
Qed.
Print Assumptions C62_registry.

(** ** Closed before there is a listener *)

(** A server whose Close came before its listener is for ever without effect: whatever happens the listener is never closed, and every connection accepted is
    neither served nor closed. *)
Theorem C62_early : forall tr s, ran tr s -> early tr -> sv_done s = true /\ sv_listener s <> Some false /\
  forall c k, nth_error (sv_conns s) c = Some k -> k_open k = true /\ k_started k = false /\ k_accepted k = 0.
Proof. intros tr s R E. destruct (early_einv tr s R E) as [A B _ C]. split; [exact A|]. split; [exact B|exact C]. Qed.
Print Assumptions C62_early.
(** Every history is of one of the two kinds. *)
Theorem C62_cases : forall tr, early tr \/ late tr.
Proof. exact early_or_late. Qed.
Print Assumptions C62_cases.

(** ** What does not hold *)

(** Three connections: the first ends, onClose is called for the second, which goes on; the third arrives while the server is being closed. *)
Definition ex_history : list saction :=
  [AListen; AFactory true; ANotified; AConn; AListenStep; AListenStep; AServed 0; AConn; AListenStep; AListenStep; AConn; AListenStep; AListenStep; ARemove 1; AConn; AClose; AListenStep; AListenStep; AEnd; AListenStep; AWatchDone].
Lemma ex_late : late ex_history.
Proof.
  intros pre post E. unfold ex_history in E. do 2 (destruct pre as [|? pre]; [discriminate E|]; cbn [app] in E; injection E as <- E). right. left. reflexivity.
Qed.
Example C62_ex : exists s, ran ex_history s /\ late ex_history /\ stopped ex_history s /\ sv_listen s = LReturned None /\
  map k_open (sv_conns s) = [false; true; false; true] /\ map k_started (sv_conns s) = [true; true; true; false] /\ sv_watcher s = false.
Proof.
  destruct (sruns new_server ex_history) as [s|] eqn:E; [|vm_compute in E; discriminate E]. exists s. split; [exact E|]. split; [exact ex_late|]. vm_compute in E. injection E as <-. split; [right; right; exists None; split; [reflexivity|discriminate]|]. repeat split.
Qed.

(** When Listen has returned there may be a connection that is open, although nobody serves it, knows it, or will close it. *)
Theorem C62_all_closed_refuted : ~ forall tr s, ran tr s -> late tr -> (forall c, ~ In (ARemove c) tr) -> (exists e, sv_listen s = LReturned e) ->
  forall c k, nth_error (sv_conns s) c = Some k -> k_open k = false.
Proof.
  intro X. set (tr := [AListen; AFactory true; ANotified; AConn; AClose; AListenStep; AListenStep; AEnd; AListenStep]). destruct (sruns new_server tr) as [s|] eqn:E; [|vm_compute in E; discriminate E].
  assert (Y := X tr s E). vm_compute in E. injection E as <-. specialize (Y ltac:(intros pre post Q; unfold tr in Q; do 2 (destruct pre as [|? pre]; [discriminate Q|]; cbn [app] in Q; injection Q as <- Q); right; left; reflexivity)).
  specialize (Y ltac:(intros c Q; cbn in Q; repeat (destruct Q as [Q|Q]; [discriminate Q|]); exact Q) ltac:(eexists; reflexivity) 0 _ eq_refl). discriminate Y.
Qed.
Print Assumptions C62_all_closed_refuted.
(** Close and a cancelled context do not always end Listen: not if Close came before the listener ... *)
Theorem C62_stops_refuted : forall n, exists tr s, ran tr s /\ In AClose tr /\ In AWatchCtx tr /\ sv_listener s = Some true /\ sv_listen s = LAccept /\ sv_watcher s = false /\
  length (sv_conns s) = n /\ forall c k, nth_error (sv_conns s) c = Some k -> k_open k = true /\ k_started k = false.
Proof.
  intro n. set (tr0 := [AClose; AListen; AFactory true; ANotified; ACtx; AWatchCtx; AClose]).
  assert (X : exists tr s, ran (tr0 ++ tr) s /\ sv_done s = true /\ sv_listener s = Some true /\ sv_listen s = LAccept /\ sv_watcher s = false /\ length (sv_conns s) = n).
  { induction n as [|n (tr & s & R & D & Ls & P & W & Ln)].
    - exists []. eexists. split; [reflexivity|]. repeat split.
    - exists (tr ++ [AConn; AListenStep; AListenStep]). destruct s as [done l reg cs pc ctx w]. cbn in D, Ls, P, W, Ln. subst. eexists. split; [|]. { unfold ran in *. rewrite app_assoc, sruns_app, R. cbn. reflexivity. }
      cbn. repeat split. rewrite app_length. cbn. lia. }
  destruct X as (tr & s & R & D & Ls & P & W & Ln). exists (tr0 ++ tr), s. split; [exact R|]. split; [left; reflexivity|]. split; [do 5 right; left; reflexivity|]. split; [exact Ls|]. split; [exact P|]. split; [exact W|]. split; [exact Ln|].
  assert (Ea : early (tr0 ++ tr)) by (exists [], (tl tr0 ++ tr); split; [reflexivity|intros []]). intros c k E. destruct (e_conns _ (early_einv _ s R Ea) c k E) as (A & B & _). split; assumption.
Qed.
Print Assumptions C62_stops_refuted.
(** ... and not as long as nobody takes the notification: Listen then waits for ever, and a cancelled context does not even close the listener. *)
Theorem C62_notification_refuted : exists tr s, ran tr s /\ late tr /\ sv_ctx s = true /\ sv_listener s = Some true /\
  forall tr' s', sruns s tr' = Some s' -> ~ In ANotified tr' -> ~ In AClose tr' -> sv_listen s' = LNotify true /\ sv_listener s' = Some true.
Proof.
  exists [AListen; AFactory true; ACtx]. eexists. split; [reflexivity|]. split; [intros pre post E; destruct pre as [|? [|? [|? pre]]]; try discriminate E; destruct pre; discriminate E|]. split; [reflexivity|]. split; [reflexivity|].
  assert (K : forall tr' s s', sv_listen s = LNotify true /\ sv_listener s = Some true /\ sv_watcher s = false -> sruns s tr' = Some s' -> ~ In ANotified tr' -> ~ In AClose tr' -> sv_listen s' = LNotify true /\ sv_listener s' = Some true).
  { induction tr' as [|a tr' IH]; intros s s' (P & Q & W) E N1 N2; cbn [sruns] in E; [assert (s = s') by congruence; subst s'; split; assumption|].
    destruct (sstep s a) as [s1|] eqn:D; [|discriminate E]. apply (IH s1 s'); [|exact E|intro X; apply N1; right; exact X|intro X; apply N2; right; exact X]. clear IH E.
    destruct s as [done l reg cs pc ctx w]. cbn [sv_listen sv_listener sv_watcher] in *. subst. destruct a as [|ok| | | | | | | | | |c|c]; cbn in D; try discriminate D.
    - contradiction N1. left. reflexivity.
    - contradiction N2. left. reflexivity.
    - destruct ctx; [discriminate D|]. injection D as <-. repeat split.
    - destruct (nth_error cs c) as [k|]; [|discriminate D]. destruct (k_started k && negb (k_ended k)); [|discriminate D]. injection D as <-. repeat split.
    - injection D as <-. repeat split. }
  intros tr' s' E N1 N2. apply (K tr' _ s') in E; [exact E| |exact N1|exact N2]. repeat split.
Qed.
Print Assumptions C62_notification_refuted.
(** Transports of connections that have ended are not forgotten. *)
Theorem C62_forgets_refuted : forall n, exists tr s m, ran tr s /\ late tr /\ sv_reg s = Some m /\ length (sv_conns s) = n /\ (forall k, In k (sv_conns s) -> k_ended k = true) /\ forall c, c < n -> In c m.
Proof.
  intro n. assert (X : exists tr s, ran tr s /\ sv_done s = false /\ ~ In AClose tr /\ (forall c, ~ In (ARemove c) tr) /\ sv_listen s = LAccept /\ sv_listener s = Some true /\ length (sv_conns s) = n /\ (forall c k, nth_error (sv_conns s) c = Some k -> k_ended k = true) /\ exists m, sv_reg s = Some m).
  { induction n as [|n (tr & s & R & D & N1 & N2 & P & Ls & Ln & En & m & M)].
    - exists [AListen; AFactory true; ANotified]. eexists. split; [reflexivity|]. cbn. repeat split; try (intros; intuition discriminate); [intros c k E; destruct c; discriminate E|exists []; reflexivity].
    - exists (tr ++ [AConn; AListenStep; AListenStep; AServed n]). destruct s as [done l reg cs pc ctx w]. cbn in D, P, Ls, Ln, En, M. subst done pc l reg.
      assert (E1 : nth_error (cs ++ [mkConn true false false 0]) n = Some (mkConn true false false 0)) by (rewrite nth_error_app2 by lia; rewrite Ln, Nat.sub_diag; reflexivity).
      eexists. split.
      { unfold ran in *. rewrite sruns_app, R. cbn. rewrite Ln. rewrite upd_nth, Nat.eqb_refl, E1. cbn. reflexivity. }
      cbn. split; [reflexivity|]. split; [intro X; apply in_app_or in X as [X|X]; [exact (N1 X)|cbn in X; intuition discriminate]|]. split; [intros c X; apply in_app_or in X as [X|X]; [exact (N2 c X)|cbn in X; intuition discriminate]|].
      split; [reflexivity|]. split; [reflexivity|]. split; [rewrite !upd_length, app_length; cbn; lia|]. split; [|eexists; reflexivity].
      intros c k E. rewrite !upd_nth in E. destruct (Nat.eqb_spec c n) as [->|N]; [rewrite E1 in E; cbn in E; injection E as <-; reflexivity|]. destruct (Nat.lt_ge_cases c n) as [Y|Y]; [rewrite nth_error_app1 in E by lia; exact (En c k E)|].
      rewrite nth_error_app2 in E by lia. destruct (c - length cs) as [|j] eqn:Q; [lia|]. destruct j; discriminate E. }
  destruct X as (tr & s & R & D & N1 & N2 & P & Ls & Ln & En & m & M). destruct (C62_registry tr s R D N2) as (m' & M' & Hm). exists tr, s, m'. split; [exact R|]. split; [intros pre post E; contradiction N1; rewrite E; apply in_or_app; right; left; reflexivity|].
  split; [exact M'|]. split; [exact Ln|]. split; [intros k Hk; destruct (In_nth_error _ _ Hk) as [c E]; exact (En c k E)|]. intros c Hc. apply Hm. split; [lia|]. rewrite P. discriminate.
Qed.
Print Assumptions C62_forgets_refuted.
