(** Invariant of the unbounded buffer over all schedules. *)
From Coq Require Import List Bool Lia.
From Verif Require Import Base UnboundedModel UnboundedSpec.
Import ListNotations.

Section Proofs.
Context {T : Type}.
Implicit Types (s : ubuf T) (es : list (event T)).

Lemma accepted_app : forall es1 es2, accepted (es1 ++ es2) = accepted es1 ++ accepted es2.
Proof. induction es1 as [|e es1 IH]; intros; [reflexivity|]. destruct e; cbn; rewrite IH; reflexivity. Qed.
Lemma received_app : forall es1 es2, received (es1 ++ es2) = received es1 ++ received es2.
Proof. induction es1 as [|e es1 IH]; intros; [reflexivity|]. destruct e; cbn; rewrite IH; reflexivity. Qed.
Lemma owes_snoc : forall es e, owes_load (es ++ [e]) =
  match e with EvReceived _ => true | EvLoaded _ => false | _ => owes_load es end.
Proof. intros. unfold owes_load. rewrite fold_left_app. reflexivity. Qed.

Definition in_flight (p : pc T) : list T :=
  match p with PutChecked t | PutTrySend t | PutAppend t => [t] | _ => [] end.
Definition chan_list (c : option T) : list T := match c with Some t => [t] | None => [] end.
Definition pending s : list T := chan_list (u_chan s) ++ u_backlog s ++ in_flight (u_pc s).
Definition is_put (p : pc T) : Prop := match p with PutChecked _ | PutTrySend _ | PutAppend _ => True | _ => False end.

Record inv s es : Prop := {
  i_fifo : accepted es = received es ++ pending s;
  i_closed : u_closed s = true -> u_disposed s = true /\ u_backlog s = [];
  i_put : is_put (u_pc s) -> u_disposed s = false;
  i_trysend : forall t, u_pc s = PutTrySend t -> u_backlog s = [];
  i_loadsend : u_pc s = LoadTrySend -> u_backlog s <> [];
  i_closing : u_pc s = LoadClose \/ u_pc s = DisposeClose -> u_backlog s = [] /\ u_disposed s = true;
  i_disposed : u_disposed s = true <-> In EvDisposed es;
  i_load1 : u_chan s = None -> u_backlog s <> [] \/ (exists t, u_pc s = PutAppend t) ->
            owes_load es = true \/ u_pc s = LoadTrySend;
  i_load2 : u_disposed s = true -> u_backlog s = [] -> u_closed s = false -> u_chan s = None ->
            owes_load es = true \/ u_pc s = LoadClose \/ u_pc s = DisposeClose
}.

Lemma inv_init : inv NewUnbounded [].
Proof.
  constructor; cbn; try discriminate; try tauto; try (intuition discriminate).
  - intros _ [H|[t H]]; [congruence|discriminate].
Qed.

Ltac fin := cbn in *; subst; try discriminate; try congruence; try tauto.

Lemma inv_step : forall s es a s' e, inv s es -> ustep s a = Some (Ret (s', e)) -> inv s' (es ++ [e]).
Proof.
  intros [c cl bl d p] es a s' e [I1 I2 I3 I4 I5 I6 I7 I8 I9] H.
  cbn in I1, I2, I3, I4, I5, I6, I7, I8, I9.
  assert (Hin : forall ev, ev <> EvDisposed -> (In EvDisposed (es ++ [ev]) <-> In EvDisposed es)).
  { intros ev Hev. rewrite in_app_iff. cbn. intuition congruence. }
  destruct a, p; cbn in H; try discriminate; try (destruct c; [|destruct cl; [|discriminate]]);
    try (destruct d); try (destruct bl); try (destruct cl); try discriminate;
    try (match goal with H : match ?c with _ => _ end = _ |- _ => destruct c end);
    try discriminate; injection H as <- <-;
    (constructor; cbn; 
     [ rewrite accepted_app, received_app, I1; unfold pending; cbn; rewrite ?app_nil_r, <- ?app_assoc; cbn; try reflexivity
     | .. ]);
    rewrite ?owes_snoc, ?Hin by discriminate; rewrite ?in_app_iff; cbn; 
    try (intros; repeat match goal with H : _ /\ _ |- _ => destruct H | H : exists _, _ |- _ => destruct H end);
    try solve [ discriminate | congruence | intuition congruence | auto 
              | intuition (try discriminate; try congruence; eauto) ].
  all: try solve [exfalso; specialize (I4 _ eq_refl); discriminate].
  all: try solve [exfalso; destruct (I2 eq_refl); specialize (I3 I); congruence].
  all: try match goal with H : _ \/ (exists _, _) |- _ => destruct H as [?|[? ?]]; try congruence; try discriminate end.
  all: try solve [left; destruct I8 as [?|?]; eauto; try discriminate; left; discriminate].
  all: try solve [exfalso; apply (I5 eq_refl); reflexivity].
Qed.

Lemma no_panic_step : forall s es a, inv s es -> ustep s a <> Some Panic.
Proof.
  intros [c cl bl d p] es a [I1 I2 I3 I4 I5 I6 I7 I8 I9] H. cbn in *.
  destruct a, p; cbn in H; try discriminate;
    repeat match goal with H : context [match ?x with _ => _ end] |- _ => destruct x; try discriminate end.
  - destruct (I2 eq_refl) as [E _]. rewrite (I3 I) in E. discriminate.
  - destruct (I2 eq_refl) as [_ E]. apply (I5 eq_refl E).
Qed.

Lemma run_inv : forall s es1, inv s es1 -> forall es r, urun s es r -> exists s', r = Ret s' /\ inv s' (es1 ++ es).
Proof.
  intros s es1 HI es r Hr; revert es1 HI; induction Hr; intros es1 HI.
  - exists s. rewrite app_nil_r. auto.
  - destruct (IHHr (es1 ++ [e])) as (s2 & -> & H2); [eapply inv_step; eauto|].
    exists s2. rewrite <- app_assoc in H2. auto.
  - exfalso. eapply no_panic_step; eauto.
Qed.

(** Runs can be cut anywhere. *)
Lemma run_split : forall es1 es2 s s', urun s (es1 ++ es2) (Ret s') ->
  exists m, urun s es1 (Ret m) /\ urun m es2 (Ret s').
Proof.
  induction es1 as [|e es1 IH]; intros es2 s s' H.
  - exists s. split; [constructor|exact H].
  - cbn in H. inversion H as [|? ? ? ? ? ? Hs Hr|]; subst.
    destruct (IH _ _ _ Hr) as (m & A & B). exists m. split; [econstructor; eauto|exact B].
Qed.

Lemma fifo : forall es r, urun NewUnbounded es r ->
  exists s, r = Ret s /\ accepted es = received es ++ pending s.
Proof.
  intros es r H. destruct (run_inv _ _ inv_init _ _ H) as (s & -> & HI). exists s. split; [reflexivity|].
  apply (i_fifo _ _ HI).
Qed.

Lemma dispose_rejects : forall es1 es2 r, urun NewUnbounded (es1 ++ EvDisposed :: es2) r -> accepted es2 = [].
Proof.
  intros es1 es2 r H. destruct (run_inv _ _ inv_init _ _ H) as (s & -> & _).
  apply run_split in H as (m & H1 & H2).
  destruct (run_inv _ _ inv_init _ _ H1) as (m' & E & HI). injection E as <-. cbn [app] in HI.
  inversion H2 as [|? ? ? ? ? ? Hs Hr|]; subst. pose proof (inv_step _ _ _ _ _ HI Hs) as HI'.
  assert (G : forall es s0 es0 r, inv s0 es0 -> In EvDisposed es0 -> urun s0 es r -> accepted es = []).
  { clear. induction es as [|e es IH]; intros s0 es0 r HI Hin Hr; [reflexivity|].
    inversion Hr as [|? ? ? ? ? ? Hs0 Hr0|]; subst. pose proof (inv_step _ _ _ _ _ HI Hs0) as HI'.
    assert (IHe : accepted es = []) by (eapply IH; [exact HI'|apply in_or_app; left; exact Hin|exact Hr0]).
    destruct e; cbn; try exact IHe.
    (* EvAccepted while disposed *)
    apply (i_disposed _ _ HI) in Hin. destruct s0 as [c cl bl d p], a, p; cbn in *; try discriminate;
      repeat match goal with H : context [match ?x with _ => _ end] |- _ => destruct x; try discriminate end.
    all: try congruence. }
  eapply G; [exact HI'|apply in_or_app; right; left; reflexivity|exact Hr].
Qed.

Lemma closed_means_drained : forall es1 es2 r, urun NewUnbounded (es1 ++ EvClosed :: es2) r ->
  received es1 = accepted es1 /\ accepted es2 = [] /\ received es2 = [] /\ In EvDisposed es1.
Proof.
  intros es1 es2 r H. destruct (run_inv _ _ inv_init _ _ H) as (s & -> & HIs).
  apply run_split in H as (m & H1 & H2).
  destruct (run_inv _ _ inv_init _ _ H1) as (m' & E & HI). injection E as <-. cbn [app] in HI, HIs.
  inversion H2 as [|? ? ? ? ? ? Hs Hr|]; subst.
  assert (Hm : u_closed m = true /\ u_chan m = None).
  { destruct m as [c cl bl d p], a, p; cbn in *; try discriminate;
      repeat match goal with H : context [match ?x with _ => _ end] |- _ => destruct x; try discriminate end; auto. }
  destruct Hm as [Hc Hn]. destruct (i_closed _ _ HI Hc) as [Hd Hb].
  assert (Hf : in_flight (u_pc m) = []).
  { pose proof (i_put _ _ HI) as P. destruct (u_pc m); cbn in *; try reflexivity; specialize (P I); congruence. }
  pose proof (i_fifo _ _ HI) as F. unfold pending in F. rewrite Hn, Hb, Hf in F. cbn in F. rewrite app_nil_r in F.
  pose proof (proj1 (i_disposed _ _ HI) Hd) as Hin.
  assert (Ha : accepted es2 = []).
  { apply in_split in Hin as (a1 & a2 & ->).
    assert (X : accepted (a2 ++ EvClosed :: es2) = []).
    { eapply (dispose_rejects a1). rewrite <- app_assoc in *.
      assert (Y : urun NewUnbounded (a1 ++ (EvDisposed :: a2) ++ EvClosed :: es2) (Ret s)); [|exact Y].
      rewrite app_assoc. clear - H1 H2.
      revert H1. generalize (a1 ++ EvDisposed :: a2). intro l. generalize (@NewUnbounded T).
      induction l as [|e l IH]; intros u Hu; inversion Hu as [|? ? ? ? ? ? Hs Hr|]; subst; [exact H2|]. cbn. econstructor; [exact Hs|]. apply IH; exact Hr. }
    rewrite accepted_app in X. apply app_eq_nil in X as [_ X]. exact X. }
  repeat split; auto.
  pose proof (i_fifo _ _ HIs) as Fs. rewrite accepted_app, received_app in Fs. cbn in Fs.
  rewrite Ha, F, app_nil_r in Fs. rewrite <- app_assoc in Fs.
  rewrite <- (app_nil_r (received es1)) in Fs at 1. apply app_inv_head in Fs. symmetry in Fs.
  apply app_eq_nil in Fs as [X _]. exact X.
Qed.

Lemma consumer_progress : forall es s, urun NewUnbounded es (Ret s) -> u_pc s = Idle -> owes_load es = false ->
  u_chan s = None -> received es = accepted es /\ (In EvDisposed es -> u_closed s = true).
Proof.
  intros es s H Hpc Ho Hc. destruct (run_inv _ _ inv_init _ _ H) as (s' & E & HI). injection E as <-. cbn [app] in HI.
  assert (Hb : u_backlog s = []).
  { destruct (u_backlog s) as [|x l] eqn:Eb; [reflexivity|exfalso].
    destruct (i_load1 _ _ HI Hc) as [X|X]; [left; rewrite Eb; discriminate|congruence|congruence]. }
  split.
  - pose proof (i_fifo _ _ HI) as F. unfold pending in F. rewrite Hc, Hb, Hpc in F. cbn in F.
    rewrite app_nil_r in F. congruence.
  - intro Hin. apply (i_disposed _ _ HI) in Hin.
    destruct (u_closed s) eqn:Ec; [reflexivity|exfalso].
    destruct (i_load2 _ _ HI Hin Hb Ec Hc) as [X|[X|X]]; congruence.
Qed.

(** The lock holder is never blocked, and the mutex is released after at most three of its steps. *)
Lemma lock_released : forall es s, urun NewUnbounded es (Ret s) -> u_pc s <> Idle ->
  exists n es' s', (n <= 3)%nat /\ length es' = n /\ urun s es' (Ret s') /\ u_pc s' = Idle.
Proof.
  intros es s H Hpc. destruct (run_inv _ _ inv_init _ _ H) as (s' & E & HI). injection E as <-. cbn [app] in HI.
  assert (G : forall s0 es0, inv s0 es0 -> u_pc s0 <> Idle ->
    exists e s1, ustep s0 AStep = Some (Ret (s1, e)) /\ inv s1 (es0 ++ [e]) /\
      match u_pc s0, u_pc s1 with
      | PutChecked _, PutTrySend _ | PutChecked _, PutAppend _ | PutTrySend _, PutAppend _ | _, Idle => True
      | _, _ => False end).
  { clear. intros s0 es0 HI Hp. pose proof (no_panic_step s0 es0 AStep HI) as NP.
    destruct (ustep s0 AStep) as [[[s1 e]| |]|] eqn:E.
    - exists e, s1. split; [reflexivity|]. split; [eapply inv_step; eauto|].
      destruct s0 as [c cl bl d p], p; cbn in *; try congruence;
      repeat match goal with H : context [match ?x with _ => _ end] |- _ => destruct x; try discriminate end;
      injection E as <- <-; cbn; exact I.
    - exfalso. destruct s0 as [c cl bl d p], p; cbn in *; try congruence;
      repeat match goal with H : context [match ?x with _ => _ end] |- _ => destruct x; try discriminate end.
    - congruence.
    - exfalso. destruct s0 as [c cl bl d p], p; cbn in *; try congruence;
      repeat match goal with H : context [match ?x with _ => _ end] |- _ => destruct x; try discriminate end. }
  destruct (G s es HI Hpc) as (e1 & s1 & A1 & I1 & B1).
  assert (D1 : u_pc s1 = Idle \/ u_pc s1 <> Idle) by (destruct (u_pc s1); [left|right..]; congruence).
  destruct D1 as [D1|D1].
  { exists 1%nat, [e1], s1. repeat split; auto. econstructor; [eauto|constructor]. }
  destruct (G s1 _ I1 D1) as (e2 & s2 & A2 & I2 & B2).
  assert (D2 : u_pc s2 = Idle \/ u_pc s2 <> Idle) by (destruct (u_pc s2); [left|right..]; congruence).
  destruct D2 as [D2|D2].
  { exists 2%nat, [e1; e2], s2. repeat split; auto. econstructor; [eauto|]. econstructor; [eauto|constructor]. }
  destruct (G s2 _ I2 D2) as (e3 & s3 & A3 & I3 & B3).
  exists 3%nat, [e1; e2; e3], s3. repeat split; auto.
  - do 3 (econstructor; [eauto|]). constructor.
  - destruct (u_pc s), (u_pc s1), (u_pc s2), (u_pc s3); cbn in *; tauto || congruence.
Qed.
End Proofs.
