(** Invariant of a transport over all schedules. *)
From Coq Require Import List Bool Lia PeanoNat.
From Verif Require Import Base UnboundedModel UnboundedSpec UnboundedProofs TransportModel TransportSpec.
Import ListNotations.

Section Proofs.
Context {F E : Type}.
Implicit Types (t : transport F E) (es : list (tevent F E)) (ues : list (event F)).

Lemma read_app : forall es es', frames_read (es ++ es') = frames_read es ++ frames_read es'.
Proof. intros. apply flat_map_app. Qed.
Lemma handled_app : forall es es', frames_handled (es ++ es') = frames_handled es ++ frames_handled es'.
Proof. intros. apply flat_map_app. Qed.
Lemma failures_app : forall es es', failures (es ++ es') = failures es ++ failures es'.
Proof. intros. apply flat_map_app. Qed.
Lemma hd_app : forall A (a b : list A) x, hd_error a = Some x -> hd_error (a ++ b) = Some x.
Proof. intros A [|y a] b x H; [discriminate|exact H]. Qed.

Lemma justified_app : forall r es es', justified r es -> justified r (es ++ es').
Proof.
  intros [| |e|e] es es' H; cbn in *; try (apply in_or_app; left; exact H).
  rewrite failures_app. apply hd_app. exact H.
Qed.

Definition result_of (s : spc F E) : option (result E) :=
  match s with SReturn r | SDisposing r | SWait r | SReturned r => Some r | _ => None end.
Definition putting (s : spc F E) : list F := match s with SPut f => [f] | _ => [] end.
Definition handling (l : lpc F) : list F := match l with LHandle f => [f] | _ => [] end.
Definition in_round (l : lpc F) : bool := match l with LHandle _ | LLoad | LLoading => true | _ => false end.
Definition disposed_pc (s : spc F E) : bool := match s with SDisposing _ | SWait _ | SReturned _ => true | _ => false end.
Definition is_sputting (s : spc F E) : bool := match s with SPutting => true | _ => false end.
Definition is_disposing (s : spc F E) : bool := match s with SDisposing _ => true | _ => false end.
Definition is_loading (l : lpc F) : bool := match l with LLoading => true | _ => false end.
Definition is_exiting (l : lpc F) : bool := match l with LExit | LGone => true | _ => false end.
Definition is_gone (l : lpc F) : bool := match l with LGone => true | _ => false end.
Definition is_returned (s : spc F E) : bool := match s with SReturned _ => true | _ => false end.
Definition by_dispatch (s : spc F E) : bool := match result_of s with Some (RDispatch _) => true | _ => false end.
Definition pc_put (p : pc F) : bool := match p with PutChecked _ | PutTrySend _ | PutAppend _ => true | _ => false end.
Definition pc_load (p : pc F) : bool := match p with LoadTrySend | LoadClose => true | _ => false end.
Definition pc_dispose (p : pc F) : bool := match p with DisposeClose => true | _ => false end.

Record tinv t es ues : Prop := {
  v_buf : inv (t_buf t) ues;
  v_read : frames_read es = accepted ues ++ putting (t_start t);
  v_handled : received ues = frames_handled es ++ handling (t_loop t);
  v_owes : owes_load ues = in_round (t_loop t);
  v_disp : u_disposed (t_buf t) = disposed_pc (t_start t);
  v_put : pc_put (u_pc (t_buf t)) = is_sputting (t_start t);
  v_dispose : pc_dispose (u_pc (t_buf t)) = is_disposing (t_start t);
  v_load : pc_load (u_pc (t_buf t)) = is_loading (t_loop t);
  v_exit : is_exiting (t_loop t) = true -> u_disposed (t_buf t) = true /\ received ues = accepted ues;
  v_done : t_done t = true -> is_gone (t_loop t) = true;
  v_gone : is_gone (t_loop t) = true -> t_done t = true \/ is_returned (t_start t) = true;
  v_returned : is_returned (t_start t) = true -> is_gone (t_loop t) = true;
  v_err : by_dispatch (t_start t) = false -> t_err t = hd_error (failures es);
  v_res : forall r, result_of (t_start t) = Some r -> justified r es;
  v_ctx : t_ctx t = true -> In OCancel es
}.

Lemma tinv_init : tinv tstart [] [].
Proof. constructor; cbn; try reflexivity; try discriminate. apply inv_init. Qed.

(** What the buffer's methods do, as far as needed. *)
Lemma put_begin : forall b ues (f : F) b' e, inv b ues -> u_disposed b = false -> ustep b (ABeginPut f) = Some (Ret (b', e)) ->
  e = EvAccepted f /\ u_pc b = Idle /\ u_pc b' = PutChecked f /\ u_disposed b' = false.
Proof. intros [c cl bl d p] ues f b' e _ Hd H. cbn in *. subst d. destruct p; try discriminate. injection H as <- <-. auto. Qed.
Lemma lock_step : forall b b' (e : event F), ustep b AStep = Some (Ret (b', e)) ->
  u_disposed b' = u_disposed b /\ (u_pc b' = Idle \/ (pc_put (u_pc b) = true /\ pc_put (u_pc b') = true)) /\
  (forall ues, accepted (ues ++ [e]) = accepted ues) /\ (forall ues, received (ues ++ [e]) = received ues) /\ ((pc_load (u_pc b) = true /\ owes_load [e] = false /\ (forall ues, owes_load (ues ++ [e]) = false)) \/ (pc_load (u_pc b) = false /\ (forall ues, owes_load (ues ++ [e]) = owes_load ues))) /\ u_pc b <> Idle.
Proof.
  intros [c cl bl d p] b' e H. cbn in H. destruct p; try discriminate;
    repeat match goal with H : context [match ?x with _ => _ end] |- _ => destruct x; try discriminate end;
    injection H as <- <-; cbn; (split; [reflexivity|]);
    (split; [try (left; reflexivity); right; split; reflexivity|]);
    (split; [intro; rewrite accepted_app; apply app_nil_r|]); (split; [intro; rewrite received_app; apply app_nil_r|]); split; try discriminate;
    try (right; split; [reflexivity|intro; rewrite owes_snoc; reflexivity]);
    left; (split; [reflexivity|]); (split; [reflexivity|intro; rewrite owes_snoc; reflexivity]).
Qed.
Lemma load_begin : forall b b' (e : event F), ustep b ABeginLoad = Some (Ret (b', e)) ->
  u_disposed b' = u_disposed b /\ u_pc b = Idle /\ (forall ues, accepted (ues ++ [e]) = accepted ues) /\ (forall ues, received (ues ++ [e]) = received ues) /\
  ((u_pc b' = Idle /\ (forall ues, owes_load (ues ++ [e]) = false)) \/ (pc_load (u_pc b') = true /\ (forall ues, owes_load (ues ++ [e]) = owes_load ues))).
Proof.
  intros [c cl bl d p] b' e H. cbn in H. destruct p; try discriminate.
  repeat match goal with H : context [match ?x with _ => _ end] |- _ => destruct x; try discriminate end;
    injection H as <- <-; cbn; repeat (split; [first [reflexivity|intro; rewrite accepted_app; apply app_nil_r|intro; rewrite received_app; apply app_nil_r]|]);
    try (left; split; [reflexivity|intro; rewrite owes_snoc; reflexivity]); try (right; split; [reflexivity|intro; rewrite owes_snoc; reflexivity]).
Qed.
Lemma dispose_begin : forall b b' (e : event F), ustep b ABeginDispose = Some (Ret (b', e)) ->
  u_disposed b' = true /\ u_pc b = Idle /\ (forall ues, accepted (ues ++ [e]) = accepted ues) /\ (forall ues, received (ues ++ [e]) = received ues) /\ (u_pc b' = Idle \/ pc_dispose (u_pc b') = true) /\
  (forall ues, owes_load (ues ++ [e]) = owes_load ues).
Proof.
  intros [c cl bl d p] b' e H. cbn in H. destruct p; try discriminate.
  repeat match goal with H : context [match ?x with _ => _ end] |- _ => destruct x; try discriminate end;
    injection H as <- <-; cbn; repeat (split; [first [reflexivity|intro; rewrite accepted_app; apply app_nil_r|intro; rewrite received_app; apply app_nil_r]|]); (split; [tauto|]); intro; rewrite owes_snoc; reflexivity.
Qed.
Lemma recv_step : forall b b' (e : event F), ustep b ARecv = Some (Ret (b', e)) ->
  u_disposed b' = u_disposed b /\ u_pc b' = u_pc b /\ (forall ues, accepted (ues ++ [e]) = accepted ues) /\
  ((exists f, e = EvReceived f) \/ (e = EvClosed /\ b' = b /\ u_closed b = true /\ u_chan b = None)).
Proof.
  intros [c cl bl d p] b' e H. cbn in H. destruct c; [|destruct cl; [|discriminate]]; injection H as <- <-; cbn;
  repeat (split; [first [reflexivity|intro; rewrite accepted_app; apply app_nil_r|intro; rewrite received_app; apply app_nil_r]|]); [left; eauto|right; auto].
Qed.
Lemma closed_drained : forall b ues, inv b ues -> u_closed b = true -> u_chan b = None -> u_disposed b = true /\ received ues = accepted ues.
Proof.
  intros b ues HI Hc Hn. destruct (i_closed _ _ HI Hc) as [Hd Hb]. split; [exact Hd|].
  pose proof (i_fifo _ _ HI) as Q. unfold pending in Q. rewrite Hn, Hb in Q.
  assert (Hf : in_flight (u_pc b) = []).
  { pose proof (i_put _ _ HI) as P. destruct (u_pc b); cbn in *; try reflexivity; specialize (P I); congruence. }
  rewrite Hf in Q. cbn in Q. rewrite app_nil_r in Q. congruence.
Qed.
Lemma idle_is : forall (b : ubuf F), u_pc b = Idle -> is_idle b = true.
Proof. intros b H. unfold is_idle. rewrite H. reflexivity. Qed.
Lemma idle_not_put : forall (b : ubuf F), pc_put (u_pc b) = true -> is_idle b = false.
Proof. intros b H. unfold is_idle. destruct (u_pc b); try discriminate; reflexivity. Qed.
Lemma idle_not_load : forall (b : ubuf F), pc_load (u_pc b) = true -> is_idle b = false.
Proof. intros b H. unfold is_idle. destruct (u_pc b); try discriminate; reflexivity. Qed.
Lemma idle_not_dispose : forall (b : ubuf F), pc_dispose (u_pc b) = true -> is_idle b = false.
Proof. intros b H. unfold is_idle. destruct (u_pc b); try discriminate; reflexivity. Qed.
Lemma kinds_disjoint : forall p : pc F, (pc_put p = true -> pc_load p = false /\ pc_dispose p = false) /\ (pc_load p = true -> pc_put p = false /\ pc_dispose p = false) /\
  (pc_dispose p = true -> pc_put p = false /\ pc_load p = false) /\ (p = Idle -> pc_put p = false /\ pc_load p = false /\ pc_dispose p = false).
Proof. intros []; cbn; repeat split; congruence. Qed.
Lemma not_idle_kind : forall p : pc F, p <> Idle -> pc_put p = true \/ pc_load p = true \/ pc_dispose p = true.
Proof. intros []; cbn; intros; auto; congruence. Qed.

Ltac snoc := rewrite ?app_nil_r, ?read_app, ?handled_app, ?failures_app, ?accepted_app, ?received_app; cbn [frames_read frames_handled failures flat_map app accepted received]; rewrite ?app_nil_r.

(** The part of the invariant that does not concern the buffer is kept by steps that cannot be seen and do not change it. *)
Lemma tinv_step : forall t es ues a t' e, tinv t es ues -> tstep t a = Some (Ret (t', e)) -> exists ues', tinv t' (es ++ [e]) (ues ++ ues').
Proof.
  intros [b err done ctx s l] es ues a t' e HI H.
  pose proof HI as [I1 I2 I3 I4 I5 I6 I7 I8 I9 I10 I11 I12 I13 I14 I15].
  cbn [t_buf t_err t_done t_ctx t_start t_loop] in *.
  assert (J : forall ev r, result_of s = Some r -> justified r (es ++ [ev])) by (intros; apply justified_app; auto).
  assert (C : forall ev, ctx = true -> In OCancel (es ++ [ev])) by (intros; apply in_or_app; left; auto).
  assert (I2' : putting s = [] -> frames_read es = accepted ues) by (intro Q; rewrite I2, Q, app_nil_r; reflexivity).
  assert (I3' : handling l = [] -> received ues = frames_handled es) by (intro Q; rewrite I3, Q, app_nil_r; reflexivity).
  destruct a as [ | | | |r| | |x]; unfold tstep in H.
  - (* TCtx *) destruct ctx; [discriminate|]. injection H as <- <-. exists [].
    constructor; cbn [t_buf t_err t_done t_ctx t_start t_loop]; snoc; auto.
    intros _. apply in_or_app. right. left. reflexivity.
  - destruct s; try discriminate. destruct ctx; [|discriminate]. injection H as <- <-. exists [].
    constructor; cbn [t_buf t_err t_done t_ctx t_start t_loop result_of]; snoc; auto.
    intros r Q; injection Q as <-. cbn. apply C. reflexivity.
  - destruct s; try discriminate. destruct err as [x|]; [|discriminate]. injection H as <- <-. exists [].
    constructor; cbn [t_buf t_err t_done t_ctx t_start t_loop result_of]; snoc; auto; try discriminate.
    intros r Q; injection Q as <-. cbn. snoc. symmetry. apply I13. reflexivity.
  - destruct s; try discriminate. destruct ctx; try discriminate. destruct err; try discriminate. injection H as <- <-. exists [].
    constructor; cbn [t_buf t_err t_done t_ctx t_start t_loop result_of]; snoc; auto; try discriminate.
  - destruct s; try (destruct r as [?|[?|]]; discriminate); destruct r as [f|[x|]]; injection H as <- <-; exists [];
    constructor; cbn [t_buf t_err t_done t_ctx t_start t_loop result_of putting] in *; snoc; auto; try discriminate;
    try (rewrite I2'; reflexivity);
    intros r Q; injection Q as <-; cbn; apply in_or_app; right; left; reflexivity.
  - (* TStart *) destruct s as [| |f| |r|r|r|r]; try discriminate; unfold on_buf in H.
    + destruct (ustep b (ABeginPut f)) as [[[b' ev]| |]|] eqn:Eu; try discriminate. injection H as <- <-.
      destruct (put_begin _ _ _ _ _ I1 I5 Eu) as (-> & P1 & P2 & P3). exists [EvAccepted f].
      pose proof (inv_step _ _ _ _ _ I1 Eu) as I1'. rewrite (idle_not_put b') by (rewrite P2; reflexivity).
      constructor; cbn [t_buf t_err t_done t_ctx t_start t_loop result_of putting] in *; snoc; auto; rewrite ?owes_snoc, ?P2; cbn; auto; try discriminate;
      try (rewrite P1 in *; cbn in *; auto; fail).
      intro Q. destruct (I9 Q) as [Q1 _]. cbn in I5. congruence.
    + destruct (ustep b AStep) as [[[b' ev]| |]|] eqn:Eu; try discriminate. injection H as <- <-.
      destruct (lock_step _ _ _ Eu) as (P1 & P2 & P3 & P4 & P5 & P6). exists [ev].
      pose proof (inv_step _ _ _ _ _ I1 Eu) as I1'. cbn in I6, I7, I5.
      destruct (kinds_disjoint (u_pc b)) as (K1 & _ & _ & _). destruct (K1 I6) as [K2 K3].
      destruct P5 as [[P5 _]|[_ P5]]; [congruence|].
      destruct P2 as [P2|[_ P2]].
      * rewrite (idle_is b' P2). constructor; cbn [t_buf t_err t_done t_ctx t_start t_loop result_of putting] in *; rewrite ?P3, ?P4; snoc; auto; rewrite ?P1, ?P3, ?P4, ?P5, ?P2, ?app_nil_r; cbn; auto; try discriminate; try congruence.
        all: try (rewrite <- I8, K2; reflexivity).
      * rewrite (idle_not_put b' P2). destruct (kinds_disjoint (u_pc b')) as (K1' & _ & _ & _). destruct (K1' P2) as [K2' K3'].
        constructor; cbn [t_buf t_err t_done t_ctx t_start t_loop result_of putting] in *; rewrite ?P3, ?P4; snoc; auto; rewrite ?P1, ?P3, ?P4, ?P5, ?app_nil_r; cbn; auto; try discriminate; try congruence.
    + destruct (ustep b ABeginDispose) as [[[b' ev]| |]|] eqn:Eu; try discriminate. injection H as <- <-.
      destruct (dispose_begin _ _ _ Eu) as (P1 & P2 & P3 & P4 & P5 & P6). exists [ev].
      pose proof (inv_step _ _ _ _ _ I1 Eu) as I1'. rewrite P2 in I6, I7, I8. cbn in I6, I7, I8, I5.
      destruct P5 as [P5|P5].
      * rewrite (idle_is b' P5). constructor; cbn [t_buf t_err t_done t_ctx t_start t_loop result_of putting] in *; rewrite ?P3, ?P4; snoc; auto; rewrite ?P3, ?P4, ?P5, ?P6, ?app_nil_r; cbn; auto; try discriminate; try congruence.
        intro Q. destruct (I9 Q) as [Q1 _]. cbn in I5. congruence.
      * rewrite (idle_not_dispose b' P5). destruct (kinds_disjoint (u_pc b')) as (_ & _ & K1' & _). destruct (K1' P5) as [K2' K3'].
        constructor; cbn [t_buf t_err t_done t_ctx t_start t_loop result_of putting] in *; rewrite ?P3, ?P4; snoc; auto; rewrite ?P3, ?P4, ?P6, ?app_nil_r; cbn; auto; try discriminate; try congruence.
        intro Q. destruct (I9 Q) as [Q1 _]. cbn in I5. congruence.
    + destruct (ustep b AStep) as [[[b' ev]| |]|] eqn:Eu; try discriminate. injection H as <- <-.
      destruct (lock_step _ _ _ Eu) as (P1 & P2 & P3 & P4 & P5 & P6). exists [ev].
      pose proof (inv_step _ _ _ _ _ I1 Eu) as I1'. cbn in I6, I7, I5.
      destruct (kinds_disjoint (u_pc b)) as (_ & _ & K1 & _). destruct (K1 I7) as [K2 K3].
      destruct P5 as [[P5 _]|[_ P5]]; [congruence|].
      destruct P2 as [P2|[P2 _]]; [|congruence].
      rewrite (idle_is b' P2). constructor; cbn [t_buf t_err t_done t_ctx t_start t_loop result_of putting] in *; rewrite ?P3, ?P4; snoc; auto; rewrite ?P1, ?P3, ?P4, ?P5, ?P2, ?app_nil_r; cbn; auto; try discriminate; try congruence.
      all: try (rewrite <- I8, K3; reflexivity).
    + destruct done; [|discriminate]. injection H as <- <-. exists [].
      constructor; cbn [t_buf t_err t_done t_ctx t_start t_loop result_of putting] in *; snoc; auto; try discriminate.
  - (* TLoop *) assert (Hl : match l with LHandle _ | LGone => False | _ => True end) by (destruct s, l; cbn in H; try discriminate; exact I).
    assert (H' : match l with
       | LRecv => on_buf (mkT b err done ctx s l) (ustep b ARecv) (fun b' e0 => mkT b' err done ctx s (match e0 with EvReceived f => LHandle f | _ => LExit end))
       | LLoad => on_buf (mkT b err done ctx s l) (ustep b ABeginLoad) (fun b' _ => mkT b' err done ctx s (if is_idle b' then LRecv else LLoading))
       | LLoading => on_buf (mkT b err done ctx s l) (ustep b AStep) (fun b' _ => mkT b' err done ctx s (if is_idle b' then LRecv else LLoading))
       | LExit => if done then None else Some (Ret (mkT b err true ctx s LGone, OTau))
       | _ => None end = Some (Ret (t', e))) by (destruct s, l; try exact H; discriminate).
    clear H. destruct l as [|f| | | |]; try contradiction; unfold on_buf in H'.
    + destruct (ustep b ARecv) as [[[b' ev]| |]|] eqn:Eu; try discriminate. injection H' as <- <-.
      destruct (recv_step _ _ _ Eu) as (P1 & P2 & P3 & P4). exists [ev].
      pose proof (inv_step _ _ _ _ _ I1 Eu) as I1'.
      destruct P4 as [[f ->]|(-> & -> & P5 & P6)].
      * constructor; cbn [t_buf t_err t_done t_ctx t_start t_loop result_of handling in_round is_exiting is_gone] in *; snoc; try (rewrite (I3' eq_refl); reflexivity); try assumption; rewrite ?P1, ?P2, ?owes_snoc; cbn; rewrite ?app_nil_r; try assumption; try reflexivity; try discriminate; auto.
        all: try (rewrite I3, app_nil_r; reflexivity).
      * destruct (closed_drained _ _ I1 P5 P6) as [Q1 Q2].
        constructor; cbn [t_buf t_err t_done t_ctx t_start t_loop result_of handling in_round is_exiting is_gone] in *; snoc; auto; rewrite ?owes_snoc; cbn; rewrite ?app_nil_r; auto; try discriminate; try congruence.
    + destruct (ustep b ABeginLoad) as [[[b' ev]| |]|] eqn:Eu; try discriminate. injection H' as <- <-.
      destruct (load_begin _ _ _ Eu) as (P1 & P2 & P3 & P4 & P5). exists [ev].
      pose proof (inv_step _ _ _ _ _ I1 Eu) as I1'. rewrite P2 in I6, I7, I8. cbn in I6, I7, I8.
      destruct P5 as [[P5 P6]|[P5 P6]].
      * rewrite (idle_is b' P5). constructor; cbn [t_buf t_err t_done t_ctx t_start t_loop result_of handling in_round is_exiting is_gone] in *; rewrite ?P3, ?P4; snoc; auto; rewrite ?P1, ?P3, ?P4, ?P5, ?P6, ?app_nil_r; cbn; auto; try discriminate; try congruence.
        all: try (rewrite I3, app_nil_r; reflexivity).
      * rewrite (idle_not_load b' P5). destruct (kinds_disjoint (u_pc b')) as (_ & K1' & _ & _). destruct (K1' P5) as [K2' K3'].
        constructor; cbn [t_buf t_err t_done t_ctx t_start t_loop result_of handling in_round is_exiting is_gone] in *; rewrite ?P3, ?P4; snoc; auto; rewrite ?P1, ?P3, ?P4, ?P6, ?app_nil_r; cbn; auto; try discriminate; try congruence.
        all: try (rewrite I3, app_nil_r; reflexivity).
    + destruct (ustep b AStep) as [[[b' ev]| |]|] eqn:Eu; try discriminate. injection H' as <- <-.
      destruct (lock_step _ _ _ Eu) as (P1 & P2 & P3 & P4 & P5 & P6). exists [ev].
      pose proof (inv_step _ _ _ _ _ I1 Eu) as I1'. cbn in I8.
      destruct (kinds_disjoint (u_pc b)) as (_ & K1 & _ & _). destruct (K1 I8) as [K2 K3].
      destruct P5 as [(_ & _ & P5)|[P5 _]]; [|congruence].
      destruct P2 as [P2|[P2 _]]; [|congruence].
      rewrite (idle_is b' P2). constructor; cbn [t_buf t_err t_done t_ctx t_start t_loop result_of handling in_round is_exiting is_gone] in *; rewrite ?P3, ?P4; snoc; auto; rewrite ?P1, ?P3, ?P4, ?P5, ?P2, ?app_nil_r; cbn; auto; try discriminate; try congruence.
      all: try (rewrite I3, app_nil_r; reflexivity).
    + destruct done; [discriminate|]. injection H' as <- <-. exists [].
      constructor; cbn [t_buf t_err t_done t_ctx t_start t_loop result_of handling in_round is_exiting is_gone] in *; snoc; auto; try discriminate.
  - (* THandled *) assert (Hl : exists f, l = LHandle f) by (destruct s, l; try discriminate; eauto).
    destruct Hl as (f & ->). assert (H' : (mkT b (match x, err with Some y, None => Some y | _, _ => err end) done ctx s LLoad, OHandled f x) = (t', e)) by (destruct s; congruence).
    clear H. injection H' as <- <-. exists [].
    constructor; cbn [t_buf t_err t_done t_ctx t_start t_loop result_of handling in_round is_exiting is_gone is_loading] in *; snoc; auto; try discriminate.
    intro Q. rewrite (I13 Q). destruct x as [y|]; cbn; [|rewrite app_nil_r; destruct (hd_error (failures es)); reflexivity].
    destruct (failures es); reflexivity.
Qed.

Lemma ustep_fine : forall (b : ubuf F) ues a, inv b ues -> ustep b a = None \/ exists b' e, ustep b a = Some (Ret (b', e)).
Proof.
  intros b ues a HI. pose proof (no_panic_step b ues a HI) as NP. destruct (ustep b a) as [[[b' e]| |]|] eqn:Eu; eauto.
  - exfalso. destruct b as [c cl bl d p], a, p; cbn in Eu; try discriminate;
      repeat match goal with H : context [match ?x with _ => _ end] |- _ => destruct x; try discriminate end.
  - congruence.
Qed.
Lemma on_buf_fine : forall t (b : ubuf F) ues a k, inv b ues -> on_buf t (ustep b a) k <> Some Panic.
Proof. intros t b ues a k HI. unfold on_buf. destruct (ustep_fine b ues a HI) as [->|(b' & e & ->)]; discriminate. Qed.
Lemma t_no_panic : forall t es ues a, tinv t es ues -> tstep t a <> Some Panic.
Proof.
  intros [b err done ctx s l] es ues a HI. pose proof (v_buf _ _ _ HI) as I1. cbn in I1.
  pose proof (fun a k => on_buf_fine (mkT b err done ctx s l) b ues a k I1) as N.
  destruct a as [ | | | |r| | |x]; unfold tstep; destruct s; try discriminate; destruct l; try discriminate; try apply N;
  repeat match goal with |- context [match ?x with _ => _ end] => destruct x; try discriminate end.
Qed.

Lemma trun_inv : forall t es1 ues1, tinv t es1 ues1 -> forall es r, trun t es r -> exists t' ues', r = Ret t' /\ tinv t' (es1 ++ es) ues'.
Proof.
  intros t es1 ues1 HI es r Hr; revert es1 ues1 HI; induction Hr as [t|t a t' e es r Hs Hr IH|t a Hs]; intros es1 ues1 HI.
  - exists t, ues1. rewrite app_nil_r. auto.
  - destruct (tinv_step _ _ _ _ _ _ HI Hs) as (u & HI'). destruct (IH _ _ HI') as (t2 & u2 & -> & H2).
    exists t2, u2. rewrite <- app_assoc in H2. auto.
  - exfalso. eapply t_no_panic; eauto.
Qed.
Lemma trun_split : forall es1 es2 t r, trun t (es1 ++ es2) r -> exists m, trun t es1 (Ret m) /\ trun m es2 r.
Proof.
  induction es1 as [|e es1 IH]; intros es2 t r H.
  - exists t. split; [constructor|exact H].
  - cbn in H. inversion H as [|? ? ? ? ? ? Hs Hr|]; subst.
    destruct (IH _ _ _ Hr) as (m & A & B). exists m. split; [econstructor; eauto|exact B].
Qed.
Lemma reached : forall es r, trun tstart es r -> exists t ues, r = Ret t /\ tinv t es ues.
Proof. intros es r H. destruct (trun_inv _ _ _ tinv_init _ _ H) as (t & u & -> & HI). eauto. Qed.

Lemma order_proof : forall es r, trun tstart es r -> (exists t, r = Ret t) /\ is_prefix (frames_handled es) (frames_read es).
Proof.
  intros es r H. destruct (reached _ _ H) as (t & ues & -> & HI). split; [eauto|].
  exists (handling (t_loop t) ++ pending (t_buf t) ++ putting (t_start t)).
  rewrite (v_read _ _ _ HI), (i_fifo _ _ (v_buf _ _ _ HI)), (v_handled _ _ _ HI), <- !app_assoc. reflexivity.
Qed.

Lemma return_step : forall t a t' r, tstep t a = Some (Ret (t', OReturn r)) -> t_start t = SWait r /\ t_start t' = SReturned r /\ t_done t = true.
Proof.
  intros [b err done ctx s l] a t' r H. unfold tstep, on_buf in H. destruct a as [ | | | |x| | |x]; cbn [t_start t_done].
  - destruct ctx; discriminate.
  - destruct s; try discriminate. destruct ctx; discriminate.
  - destruct s; try discriminate. destruct err; discriminate.
  - destruct s; try discriminate. destruct ctx; try discriminate. destruct err; discriminate.
  - destruct s; destruct x as [?|[?|]]; discriminate.
  - destruct s; try discriminate; try (match type of H with context [ustep ?x ?y] => destruct (ustep x y) as [[[? ?]| |]|] end; discriminate).
    destruct done; [|discriminate]. injection H as <- <-. auto.
  - destruct s, l; try discriminate; try (match type of H with context [ustep ?x ?y] => destruct (ustep x y) as [[[? ?]| |]|] end; discriminate);
    destruct done; discriminate.
  - destruct s, l; discriminate.
Qed.

Lemma after_return : forall t r es es0 ues, tinv t es0 ues -> t_start t = SReturned r -> forall r', trun t es r' -> forall e, In e es -> e = OCancel.
Proof.
  intros t r es es0 ues HI Hs r' Hr. revert es0 ues HI Hs. induction Hr as [t|t a t' e es r0 H Hr IH|t a H]; intros es0 ues HI Hs x Hx; [destruct Hx| |destruct Hx].
  assert (G : e = OCancel /\ t_start t' = SReturned r).
  { pose proof (v_returned _ _ _ HI) as G. rewrite Hs in G. specialize (G eq_refl).
    destruct t as [b err done ctx s l]. cbn [t_start t_loop] in *. subst s. destruct l; try discriminate.
    destruct a as [ | | | |[y|[y|]]| | |y]; cbn in H; try discriminate. destruct ctx; [discriminate|]. injection H as <- <-. auto. }
  destruct G as [-> G]. destruct Hx as [<-|Hx]; [reflexivity|].
  destruct (tinv_step _ _ _ _ _ _ HI H) as (u & HI'). eapply IH; eauto.
Qed.

Lemma drained_proof : forall es1 r es2 q, trun tstart (es1 ++ OReturn r :: es2) q ->
  frames_handled es1 = frames_read es1 /\ justified r es1 /\ (forall e, In e es2 -> e = OCancel).
Proof.
  intros es1 r es2 q H. apply trun_split in H as (m & H1 & H2). destruct (reached _ _ H1) as (t & ues & Q & HI). injection Q as <-.
  inversion H2 as [|? a t' ? ? ? Hs Hr|]; subst. destruct (return_step _ _ _ _ Hs) as (S1 & S2 & S3).
  destruct (tinv_step _ _ _ _ _ _ HI Hs) as (u & HI'). split; [|split].
  - pose proof (v_done _ _ _ HI S3) as G. assert (X : is_exiting (t_loop m) = true) by (destruct (t_loop m); try discriminate; reflexivity).
    destruct (v_exit _ _ _ HI X) as [_ Y]. rewrite (v_read _ _ _ HI), S1, <- Y, (v_handled _ _ _ HI). cbn.
    destruct (t_loop m); try discriminate. cbn. rewrite !app_nil_r. reflexivity.
  - apply (v_res _ _ _ HI). rewrite S1. reflexivity.
  - eapply after_return; [exact HI'|exact S2|exact Hr].
Qed.

Definition may_read (s : spc F E) : nat := match s with SRead => 1 | _ => 0 end.
Lemma failed_reads : forall t es0 ues es r, tinv t es0 ues -> failures es0 <> [] -> trun t es r -> (reads_done es <= may_read (t_start t))%nat.
Proof.
  intros t es0 ues es r HI Hf Hr. revert es0 ues HI Hf. induction Hr as [t|t a t' e es r Hs Hr IH|t a Hs]; intros es0 ues HI Hf; [cbn; lia| |cbn; lia].
  destruct (tinv_step _ _ _ _ _ _ HI Hs) as (u & HI').
  assert (Hf' : failures (es0 ++ [e]) <> []) by (rewrite failures_app; intro Q; apply app_eq_nil in Q; tauto).
  specialize (IH _ _ HI' Hf').
  assert (G : (length (filter (fun x => match x with ORead _ | OEnd _ => true | _ => false end) [e]) + may_read (t_start t') <= may_read (t_start t))%nat).
  { pose proof (v_err _ _ _ HI) as V. clear IH HI' Hr HI. destruct t as [b err done ctx s l]. cbn [t_start t_err] in *.
    destruct a as [ | | | |x| | |x]; unfold tstep, on_buf in Hs;
    try (destruct ctx; [discriminate|]; injection Hs as <- <-; cbn; lia).
    - destruct s; try discriminate. destruct ctx; [|discriminate]. injection Hs as <- <-. cbn; lia.
    - destruct s; try discriminate. destruct err; [|discriminate]. injection Hs as <- <-. cbn; lia.
    - destruct s; try discriminate. destruct ctx; [discriminate|]. destruct err; [discriminate|]. exfalso.
      specialize (V eq_refl). destruct (failures es0); [congruence|discriminate].
    - destruct s; try (destruct x as [?|[?|]]; discriminate). destruct x as [f|[x|]]; injection Hs as <- <-; cbn; lia.
    - destruct s; try discriminate; try (destruct done; [|discriminate]; injection Hs as <- <-; cbn; lia);
      match type of Hs with context [ustep ?x ?y] => destruct (ustep x y) as [[[b' ev]| |]|] end; try discriminate; injection Hs as <- <-;
      destruct (is_idle b'); cbn; lia.
    - assert (X : e = OTau /\ t_start t' = s).
      { destruct s, l; try discriminate; try (destruct done; [discriminate|]; injection Hs as <- <-; cbn; auto; fail);
        match type of Hs with context [ustep ?x ?y] => destruct (ustep x y) as [[[b' ev]| |]|] end; try discriminate; injection Hs as <- <-; auto. }
      destruct X as [-> ->]. cbn. lia.
    - assert (X : t_start t' = s /\ exists f, e = OHandled f x).
      { destruct s, l; try discriminate; injection Hs as <- <-; eauto. }
      destruct X as [-> [f ->]]. cbn. lia. }
  unfold reads_done in *. change (e :: es) with ([e] ++ es). rewrite filter_app, app_length. lia.
Qed.

Lemma stops_proof : forall es1 f x es2 q, trun tstart (es1 ++ OHandled f (Some x) :: es2) q -> (reads_done es2 <= 1)%nat.
Proof.
  intros es1 f x es2 q H. apply trun_split in H as (m & H1 & H2). destruct (reached _ _ H1) as (t & ues & Q & HI). injection Q as <-.
  inversion H2 as [|? a t' ? ? ? Hs Hr|]; subst. destruct (tinv_step _ _ _ _ _ _ HI Hs) as (u & HI').
  assert (G : failures (es1 ++ [OHandled f (Some x)]) <> []).
  { rewrite failures_app. intro Q. apply app_eq_nil in Q as [_ Q]. discriminate. }
  pose proof (failed_reads _ _ _ _ _ HI' G Hr) as L. destruct (t_start t'); cbn in L; lia.
Qed.

(** Leaving. *)
Definition measure t : nat :=
  match t_start t with SReturn _ => 3 | SDisposing _ => 2 | SWait _ => 1 | _ => 0 end +
  (if t_ctx t then 0 else 1) + 5 * length (pending (t_buf t)) +
  match t_loop t with LRecv => 2 | LHandle _ => 5 | LLoad => 4 | LLoading => 3 | LExit => 1 | LGone => 0 end.

Lemma step_pending : forall (b b' : ubuf F) ues a e, inv b ues -> ustep b a = Some (Ret (b', e)) ->
  length (pending b') + length (received [e]) = length (pending b) + length (accepted [e]).
Proof.
  intros b b' ues a e HI Hs. pose proof (inv_step _ _ _ _ _ HI Hs) as HI'.
  pose proof (i_fifo _ _ HI) as A. pose proof (i_fifo _ _ HI') as B.
  rewrite accepted_app, received_app in B. apply (f_equal (@length F)) in A, B. rewrite !app_length in *. lia.
Qed.

Lemma leaving_step : forall t es ues a t' e, tinv t es ues -> leaving t -> tstep t a = Some (Ret (t', e)) -> leaving t' /\ measure t' < measure t.
Proof.
  intros [b err done ctx s l] es ues a t' e HI Hl Hs. pose proof (v_buf _ _ _ HI) as I1. cbn [t_buf] in I1.
  pose proof (v_load _ _ _ HI) as I8. pose proof (v_put _ _ _ HI) as I6. cbn [t_buf t_loop t_start] in I8, I6. clear HI.
  destruct a as [ | | | |x| | |x]; unfold tstep, on_buf in Hs; unfold leaving in *; cbn [t_start] in Hl.
  - destruct ctx; [discriminate|]. injection Hs as <- <-. split; [exact Hl|]. unfold measure. cbn [t_start t_ctx t_buf t_loop]. lia.
  - destruct s; try contradiction; discriminate.
  - destruct s; try contradiction; discriminate.
  - destruct s; try contradiction; discriminate.
  - destruct s; try contradiction; destruct x as [?|[?|]]; discriminate.
  - destruct s as [| |f| |r|r|r|r]; try contradiction; try discriminate.
    + destruct (ustep b ABeginDispose) as [[[b' ev]| |]|] eqn:Eu; try discriminate. injection Hs as <- <-.
      pose proof (step_pending _ _ _ _ _ I1 Eu) as L. destruct (dispose_begin _ _ _ Eu) as (_ & _ & P3 & P4 & _).
      specialize (P3 []). specialize (P4 []). cbn [app] in P3, P4. rewrite P3, P4 in L. cbn in L.
      unfold measure. destruct (is_idle b'); cbn [t_start t_ctx t_buf t_loop]; split; auto; lia.
    + destruct (ustep b AStep) as [[[b' ev]| |]|] eqn:Eu; try discriminate. injection Hs as <- <-.
      pose proof (step_pending _ _ _ _ _ I1 Eu) as L. destruct (lock_step _ _ _ Eu) as (_ & P2 & P3 & P4 & _).
      specialize (P3 []). specialize (P4 []). cbn [app] in P3, P4. rewrite P3, P4 in L. cbn in L, I6.
      destruct P2 as [P2|[P2 _]]; [|congruence]. rewrite (idle_is _ P2).
      unfold measure. cbn [t_start t_ctx t_buf t_loop]; split; auto; lia.
    + destruct done; [|discriminate]. injection Hs as <- <-. unfold measure. cbn [t_start t_ctx t_buf t_loop]; split; auto; lia.
  - assert (H' : match l with
       | LRecv => on_buf (mkT b err done ctx s l) (ustep b ARecv) (fun b' e0 => mkT b' err done ctx s (match e0 with EvReceived f => LHandle f | _ => LExit end))
       | LLoad => on_buf (mkT b err done ctx s l) (ustep b ABeginLoad) (fun b' _ => mkT b' err done ctx s (if is_idle b' then LRecv else LLoading))
       | LLoading => on_buf (mkT b err done ctx s l) (ustep b AStep) (fun b' _ => mkT b' err done ctx s (if is_idle b' then LRecv else LLoading))
       | LExit => if done then None else Some (Ret (mkT b err true ctx s LGone, OTau))
       | _ => None end = Some (Ret (t', e))) by (destruct s, l; try exact Hs; discriminate).
    clear Hs. destruct l as [|f| | | |]; try discriminate; unfold on_buf in H'.
    + destruct (ustep b ARecv) as [[[b' ev]| |]|] eqn:Eu; try discriminate. injection H' as <- <-.
      pose proof (step_pending _ _ _ _ _ I1 Eu) as L. destruct (recv_step _ _ _ Eu) as (_ & _ & P3 & P4).
      specialize (P3 []). cbn [app] in P3. rewrite P3 in L.
      unfold measure. destruct P4 as [[f ->]|(-> & -> & _)]; cbn in L; cbn [t_start t_ctx t_buf t_loop]; split; auto; lia.
    + destruct (ustep b ABeginLoad) as [[[b' ev]| |]|] eqn:Eu; try discriminate. injection H' as <- <-.
      pose proof (step_pending _ _ _ _ _ I1 Eu) as L. destruct (load_begin _ _ _ Eu) as (_ & _ & P3 & P4 & _).
      specialize (P3 []). specialize (P4 []). cbn [app] in P3, P4. rewrite P3, P4 in L. cbn in L.
      unfold measure. destruct (is_idle b'); cbn [t_start t_ctx t_buf t_loop]; split; auto; lia.
    + destruct (ustep b AStep) as [[[b' ev]| |]|] eqn:Eu; try discriminate. injection H' as <- <-.
      pose proof (step_pending _ _ _ _ _ I1 Eu) as L. destruct (lock_step _ _ _ Eu) as (_ & P2 & P3 & P4 & _).
      specialize (P3 []). specialize (P4 []). cbn [app] in P3, P4. rewrite P3, P4 in L. cbn in L, I8.
      destruct (kinds_disjoint (u_pc b)) as (_ & K1 & _ & _). destruct (K1 I8) as [K2 _].
      destruct P2 as [P2|[P2 _]]; [|congruence]. rewrite (idle_is _ P2).
      unfold measure. cbn [t_start t_ctx t_buf t_loop]; split; auto; lia.
    + destruct done; [discriminate|]. injection H' as <- <-. unfold measure. cbn [t_start t_ctx t_buf t_loop]; split; auto; lia.
  - assert (Hl' : exists f, l = LHandle f) by (destruct s, l; try discriminate; eauto).
    destruct Hl' as (f & ->). assert (X : t_start t' = s /\ t_ctx t' = ctx /\ t_buf t' = b /\ t_loop t' = LLoad) by (destruct s; injection Hs as <- <-; auto).
    destruct X as (X1 & X2 & X3 & X4). unfold measure. rewrite X1, X2, X3, X4. cbn [t_start t_ctx t_buf t_loop]. split; auto; lia.
Qed.

Lemma leaving_bound : forall es0 t, trun tstart es0 (Ret t) -> leaving t -> forall es r, trun t es r -> length es <= measure t.
Proof.
  intros es0 t H Hl es r Hr. destruct (reached _ _ H) as (t1 & ues & Q & HI). injection Q as <-. clear H. revert es0 ues HI Hl.
  induction Hr as [t|t a t' e es r Hs Hr IH|t a Hs]; intros es0 ues HI Hl; [cbn; lia| |cbn; lia].
  destruct (leaving_step _ _ _ _ _ _ HI Hl Hs) as [L1 L2]. destruct (tinv_step _ _ _ _ _ _ HI Hs) as (u & HI').
  specialize (IH _ _ HI' L1). cbn. lia.
Qed.

Lemma astep_enabled : forall (b : ubuf F), u_pc b <> Idle -> ustep b AStep <> None.
Proof.
  intros [c cl bl d p] H. cbn in *. destruct p; try congruence;
  repeat match goal with |- context [match ?x with _ => _ end] => destruct x; try discriminate end; discriminate.
Qed.
Lemma begin_enabled : forall (b : ubuf F) a, u_pc b = Idle -> match a with ABeginPut _ | ABeginLoad | ABeginDispose => True | _ => False end -> ustep b a <> None.
Proof.
  intros [c cl bl d p] a H Ha. cbn in *. subst p. destruct a; try contradiction;
  repeat match goal with |- context [match ?x with _ => _ end] => destruct x; try discriminate end; discriminate.
Qed.
Lemma on_buf_none : forall t r k, on_buf t r k = None -> r = None :> option (outcome unit (ubuf F * event F)).
Proof. intros t [[[]| |]|] k H; try discriminate; reflexivity. Qed.

Lemma stuck_proof : forall es t, trun tstart es (Ret t) -> (forall a, a <> TCtx -> tstep t a = None) -> returned t.
Proof.
  intros es t H N. destruct (reached _ _ H) as (t1 & ues & Q & HI). injection Q as <-. clear H.
  destruct t as [b err done ctx s l].
  pose proof HI as [I1 I2 I3 I4 I5 I6 I7 I8 I9 I10 I11 I12 I13 I14 I15]. cbn [t_buf t_err t_done t_ctx t_start t_loop] in *.
  assert (Lk : l = LLoading -> False).
  { intros ->. specialize (N TLoop ltac:(discriminate)). cbn in I8.
    assert (X : ustep b AStep = None) by (destruct s; cbn -[ustep] in N; apply on_buf_none in N; exact N).
    apply astep_enabled in X; [exact X|]. intro Q. rewrite Q in I8. discriminate. }
  assert (Pl : pc_load (u_pc b) = false) by (rewrite I8; destruct l; try reflexivity; exfalso; auto).
  assert (Idl : is_sputting s = false -> is_disposing s = false -> u_pc b = Idle).
  { intros A B. destruct (u_pc b) eqn:Eb; try reflexivity; cbn in *; congruence. }
  destruct s as [| |f| |r|r|r|r].
  - exfalso. destruct ctx; [specialize (N TPickCtx ltac:(discriminate)); discriminate|].
    destruct err; [specialize (N TPickErr ltac:(discriminate)); discriminate|specialize (N TPickDefault ltac:(discriminate)); discriminate].
  - exfalso. specialize (N (TRead (inr None)) ltac:(discriminate)). discriminate.
  - exfalso. specialize (N TStart ltac:(discriminate)). cbn -[ustep] in N. apply on_buf_none in N. apply begin_enabled in N; auto.
  - exfalso. specialize (N TStart ltac:(discriminate)). cbn -[ustep] in N. apply on_buf_none in N. apply astep_enabled in N; auto.
    intro Q. rewrite Q in I6. discriminate.
  - exfalso. specialize (N TStart ltac:(discriminate)). cbn -[ustep] in N. apply on_buf_none in N. apply begin_enabled in N; auto.
  - exfalso. specialize (N TStart ltac:(discriminate)). cbn -[ustep] in N. apply on_buf_none in N. apply astep_enabled in N; auto.
    intro Q. rewrite Q in I7. discriminate.
  - exfalso. specialize (Idl eq_refl eq_refl).
    destruct done; [specialize (N TStart ltac:(discriminate)); discriminate|].
    destruct l as [|f| | | |].
    + specialize (N TLoop ltac:(discriminate)). cbn -[ustep] in N. apply on_buf_none in N.
      assert (X : u_chan b = None /\ u_closed b = false) by (destruct b as [c cl bl d p]; cbn in *; destruct c; [discriminate|]; destruct cl; [discriminate|auto]).
      destruct X as [X1 X2]. cbn in I4, I5.
      assert (Y : u_backlog b = []).
      { destruct (u_backlog b) as [|y q] eqn:Eb; [reflexivity|exfalso].
        destruct (i_load1 _ _ I1 X1) as [Z|Z]; [left; rewrite Eb; discriminate|congruence|congruence]. }
      destruct (i_load2 _ _ I1 I5 Y X2 X1) as [Z|[Z|Z]]; congruence.
    + specialize (N (THandled None) ltac:(discriminate)). discriminate.
    + specialize (N TLoop ltac:(discriminate)). cbn -[ustep] in N. apply on_buf_none in N. apply begin_enabled in N; auto.
    + auto.
    + specialize (N TLoop ltac:(discriminate)). discriminate.
    + destruct (I11 eq_refl); discriminate.
  - exists r. reflexivity.
Qed.

Lemma read_event : forall t a t' e, tstep t a = Some (Ret (t', e)) -> match e with ORead _ | OEnd _ => t_start t = SRead | _ => True end.
Proof.
  intros [b err done ctx s l] a t' e H. unfold tstep, on_buf in H. destruct a as [ | | | |x| | |x]; cbn [t_start].
  - destruct ctx; [discriminate|]. injection H as <- <-. exact I.
  - destruct s; try discriminate. destruct ctx; [|discriminate]. injection H as <- <-. exact I.
  - destruct s; try discriminate. destruct err; [|discriminate]. injection H as <- <-. exact I.
  - destruct s; try discriminate. destruct ctx; try discriminate. destruct err; [discriminate|]. injection H as <- <-. exact I.
  - destruct s; try (destruct x as [?|[?|]]; discriminate). destruct x as [?|[?|]]; injection H as <- <-; reflexivity.
  - destruct s; try discriminate; try (match type of H with context [ustep ?x ?y] => destruct (ustep x y) as [[[? ?]| |]|] end; try discriminate; injection H as <- <-; exact I).
    destruct done; [|discriminate]. injection H as <- <-. exact I.
  - destruct s, l; try discriminate; try (match type of H with context [ustep ?x ?y] => destruct (ustep x y) as [[[? ?]| |]|] end; try discriminate; injection H as <- <-; exact I);
    destruct done; try discriminate; injection H as <- <-; exact I.
  - destruct s, l; try discriminate; injection H as <- <-; exact I.
Qed.
Lemma leaving_reads : forall t es0 ues es r, tinv t es0 ues -> leaving t -> trun t es r -> reads_done es = 0.
Proof.
  intros t es0 ues es r HI Hl Hr. revert es0 ues HI Hl. induction Hr as [t|t a t' e es r Hs Hr IH|t a Hs]; intros es0 ues HI Hl; [reflexivity| |reflexivity].
  destruct (tinv_step _ _ _ _ _ _ HI Hs) as (u & HI'). destruct (leaving_step _ _ _ _ _ _ HI Hl Hs) as [L _]. specialize (IH _ _ HI' L).
  pose proof (read_event _ _ _ _ Hs) as V. unfold leaving in Hl. unfold reads_done in *. cbn [filter].
  destruct e; try exact IH; rewrite V in Hl; contradiction.
Qed.
Lemma end_last : forall es1 x es2 q, trun tstart (es1 ++ OEnd x :: es2) q -> reads_done es2 = 0.
Proof.
  intros es1 x es2 q H. apply trun_split in H as (m & H1 & H2). destruct (reached _ _ H1) as (t & ues & Q & HI). injection Q as <-.
  inversion H2 as [|? a t' ? ? ? Hs Hr|]; subst. destruct (tinv_step _ _ _ _ _ _ HI Hs) as (u & HI').
  eapply leaving_reads; [exact HI'| |exact Hr]. pose proof (read_event _ _ _ _ Hs) as V. cbn in V.
  destruct m as [b err done ctx s l]. cbn in V. subst s. destruct a as [ | | | |[y|[y|]]| | |y]; unfold tstep, on_buf in Hs; try discriminate.
  - destruct ctx; discriminate.
  - injection Hs as <- <-. exact I.
  - injection Hs as <- <-. exact I.
  - destruct l; try discriminate; try (match type of Hs with context [ustep ?x ?y] => destruct (ustep x y) as [[[? ?]| |]|] end; discriminate); destruct done; discriminate.
  - destruct l; discriminate.
Qed.
Lemma reads_app : forall es es', reads_done (es ++ es') = reads_done es + reads_done es'.
Proof. intros. unfold reads_done. rewrite filter_app, app_length. reflexivity. Qed.
Lemma reports_proof : forall es1 f x es2 g r q, trun tstart (es1 ++ OHandled f (Some x) :: es2) q -> In (ORead g) es2 -> In (OReturn r) es2 ->
  r = RCtx \/ exists e, r = RDispatch e.
Proof.
  intros es1 f x es2 g r q H Hg Hr. pose proof (stops_proof _ _ _ _ _ H) as S.
  assert (N : forall y, ~ In (OEnd y) (es1 ++ OHandled f (Some x) :: es2)).
  { intros y Hy. apply in_app_or in Hy as [Hy|[Hy|Hy]]; [|discriminate|].
    - apply in_split in Hy as (a & b & ->). rewrite <- app_assoc in H. cbn [app] in H. apply end_last in H.
      rewrite reads_app in H. change (OHandled f (Some x) :: es2) with ([OHandled f (Some x)] ++ es2) in H. rewrite reads_app in H.
      apply in_split in Hg as (c & d & ->). rewrite reads_app in H. cbn in H. lia.
    - apply in_split in Hg as (c & d & ->). apply in_app_or in Hy as [Hy|[Hy|Hy]]; [|discriminate|];
      apply in_split in Hy as (c1 & c2 & ->); unfold reads_done in S; rewrite ?filter_app, ?app_length in S; cbn in S; rewrite ?filter_app, ?app_length in S; cbn in S; lia. }
  assert (R : In (OReturn r) (es1 ++ OHandled f (Some x) :: es2)) by (apply in_or_app; right; right; exact Hr).
  apply in_split in R as (a & b & R). rewrite R in H. destruct (drained_proof _ _ _ _ H) as (_ & J & _).
  destruct r as [| |e|e]; [|left; reflexivity| |right; eauto]; exfalso; cbn in J; [apply (N None)|apply (N (Some e))]; rewrite R; apply in_or_app; left; exact J.
Qed.

(** Runs by their actions, for examples. *)
Fixpoint texec t (l : list (taction F E)) : option (list (tevent F E) * transport F E) :=
  match l with
  | [] => Some ([], t)
  | a :: l' => match tstep t a with
               | Some (Ret (t', e)) => match texec t' l' with Some (es, t2) => Some (e :: es, t2) | None => None end
               | _ => None
               end
  end.
Lemma texec_run : forall l t es t', texec t l = Some (es, t') -> trun t es (Ret t').
Proof.
  induction l as [|a l IH]; intros t es t' H; cbn in H.
  - injection H as <- <-. constructor.
  - destruct (tstep t a) as [[[t1 e]| |]|] eqn:Es; try discriminate. destruct (texec t1 l) as [[es1 t2]|] eqn:El; try discriminate.
    injection H as <- <-. econstructor; [exact Es|]. apply IH. exact El.
Qed.
End Proofs.
