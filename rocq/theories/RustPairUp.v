(** Proofs about what the caller's side of a channel tells the other of the two sockets of [RustPairModel]. *)
From Coq Require Import List NArith ZArith Lia Bool ZifyBool ZifyNat ZifyN.
From Verif Require Import Base ProxyModel RustFramesModel RustSocketModel RustSocketSpec RustSocketProofs RustSocketCalls RustPairModel RustPairSpec RustPairProofs RustPairStreams.
From Verif Require RustCallModel RustStreamModel.
Import ListNotations.
Open Scope N_scope.

(** ** Replies *)

Lemma frame_out : forall s f s', process_once s f = Some s' ->
  k_out s' = k_out s \/ (exists sid, k_out s' = k_out s ++ [(ByFrame, RCancel sid)]) \/
  exists sid n, f = RRequestN sid n /\ (n = 0 \/ m_get sid (k_channels s) = None \/ exists i c, m_get sid (k_channels s) = Some i /\ nth_error (k_callers s) i = Some c /\ a_phase c = Ended).
Proof.
  intros s f s' H. destruct f as [p | sid | sid code data | sid n | r | r | r | r]; cbn [process_once] in H.
  - injection H as <-. destruct (on_payload_fields (with_hist s (EFrame (RPayloadFrame p))) p) as (_ & _ & _ & _ & _ & [E | (E & _)]); [left; exact E | right; left; eexists; exact E].
  - left. destruct (on_cancel_fields _ _ _ H) as (_ & _ & _ & _ & _ & E). exact E.
  - left. destruct (on_error_fields _ _ _ _ _ H) as (_ & _ & _ & _ & _ & E). exact E.
  - injection H as <-. unfold on_request_n. destruct (N.eqb_spec n 0) as [Z | Z]; [right; right; exists sid, n; auto |]. change (k_channels (with_hist s (EFrame (RRequestN sid n)))) with (k_channels s).
    change (k_callers (with_hist s (EFrame (RRequestN sid n)))) with (k_callers s). destruct (m_get sid (k_channels s)) as [i |] eqn:Eg; [| right; right; exists sid, n; auto].
    destruct (nth_error (k_callers s) i) as [c |] eqn:Ec; [| left; reflexivity]. destruct (a_phase c) eqn:Ep; try (left; reflexivity). right. right. exists sid, n. split; [reflexivity |]. right. right. exists i, c. auto.
  - injection H as <-. left. reflexivity.
  - injection H as <-. left. reflexivity.
  - injection H as <-. left. reflexivity.
  - injection H as <-. left. reflexivity.
Qed.
Definition quiet (s : sock) : Prop := forall f, In (ByFrame, f) (k_out s) -> exists sid, f = RCancel sid.
Lemma quiet_local : forall s m s', quiet s -> k_move s m = Some s' -> not_frame m = true -> quiet s'.
Proof.
  intros s m s' Q H NF f Hf. destruct m as [c p | | i x | i | k | i | j | j x | j | g]; cbn [k_move] in H.
  - injection H as <-. destruct c; cbn [do_call k_out send register_handler with_hist with_ports with_next] in Hf; apply in_app_or in Hf as [Hf | [Hf | []]]; try discriminate; exact (Q _ Hf).
  - injection H as <-. exact (Q _ Hf).
  - destruct (nth_error (k_callers s) i) as [c |]; [| discriminate]. destruct (u_live (a_in c)); [| discriminate]. injection H as <-. exact (Q _ Hf).
  - destruct (nth_error (k_callers s) i) as [c |]; [| discriminate]. injection H as <-. exact (Q _ Hf).
  - destruct (nth_error (k_ports s) k) as [o |]; [| discriminate]. injection H as <-. exact (Q _ Hf).
  - assert (X : forall c ph, Some (caller_end s i c) = Some s' \/ (exists l f', Some (send (with_callers s (k_channels s) l) (ByCaller i) f') = Some s') \/ (exists l, Some (with_callers s (k_channels s) l) = Some s') -> ph = 0 -> exists sid, f = RCancel sid).
    { intros c ph [E | [(l & f' & E) | (l & E)]] _; injection E as <-; cbn [caller_end send with_callers k_out] in Hf; try (apply in_app_or in Hf as [Hf | [Hf | []]]; try discriminate); exact (Q _ Hf). }
    unfold caller_step in H. destruct (nth_error (k_callers s) i) as [c |]; [| discriminate]. destruct (a_phase c).
    + destruct (next_of (a_in c)) as [[x |] |]; [| apply (X c 0); [left; exact H | reflexivity] | discriminate]. destruct (a_n c =? 0); [discriminate |].
      destruct x; (apply (X c 0); [right; left; eexists; eexists; exact H | reflexivity]).
    + destruct (nth_error (a_grants c) (a_used c)); [apply (X c 0); [right; right; eexists; exact H | reflexivity] |].
      destruct (m_get (a_sid c) (k_channels s)) as [i' |]; [destruct (Nat.eqb i' i); [discriminate |] |]; (apply (X c 0); [left; exact H | reflexivity]).
    + discriminate.
  - destruct (nth_error (k_serves s) j) as [v |]; [| discriminate]. destruct (serve_step v) as [[v' l] |]; [| discriminate]. injection H as <-.
    destruct (sends_fields j l (with_serves s (put (k_serves s) j v'))) as (_ & _ & _ & _ & _ & _ & _ & E). rewrite E in Hf. apply in_app_or in Hf as [Hf | Hf]; [exact (Q _ Hf) |].
    apply in_map_iff in Hf as (g & Eg & _). discriminate Eg.
  - destruct (nth_error (k_serves s) j) as [v |]; [| discriminate]. destruct (may_feed v x); [| discriminate]. injection H as <-. exact (Q _ Hf).
  - destruct (nth_error (k_serves s) j) as [v |]; [| discriminate]. destruct (v_started v); [| discriminate]. injection H as <-. exact (Q _ Hf).
  - discriminate NF.
Qed.

(** ** A channel that began *)

(** Of a channel's input, the first signal is an item, or nothing else was read. *)
Definition begun (c : caller) : Prop := u_pos (a_in c) = 0%nat \/ (exists x r, u_fed (a_in c) = SOk x :: r) \/ (u_pos (a_in c) = 1%nat /\ a_first c = true).
Definition begun_all (s : sock) : Prop := forall i c, nth_error (k_callers s) i = Some c -> begun c.
Definition no_credit (s : sock) : Prop := forall i c, nth_error (k_callers s) i = Some c -> a_first c = true -> a_grants c = [].
Lemma begun_put : forall l i c c' s', (forall j d, nth_error l j = Some d -> begun d) -> nth_error l i = Some c -> k_callers s' = put l i c' -> begun c' -> begun_all s'.
Proof.
  intros l i c c' s' B E Es Bc j d Ed. rewrite Es, nth_put in Ed by (apply nth_error_Some; congruence). destruct (Nat.eqb j i); [injection Ed as <-; exact Bc | exact (B _ _ Ed)].
Qed.
Lemma begun_move : forall sd n s m s', begun_all s -> no_credit s -> callers_inv sd n s -> k_move s m = Some s' -> begun_all s'.
Proof.
  intros sd n s m s' B NC CI H. destruct m as [c p | | i x | i | k | i | j | j x | j | g]; cbn [k_move] in H.
  - injection H as <-. destruct c; exact B.
  - injection H as <-. intros i c E. cbn [do_channel with_hist with_callers k_callers] in E. rewrite nth_snoc in E. destruct (Nat.eqb i _); [injection E as <-; left; reflexivity | exact (B _ _ E)].
  - destruct (nth_error (k_callers s) i) as [c |] eqn:E; [| discriminate]. destruct (u_live (a_in c)); [| discriminate]. injection H as <-. eapply begun_put; [exact B | exact E | reflexivity |].
    unfold begun. cbn [a_in feed u_pos u_fed a_first]. destruct (B _ _ E) as [Z | [(y & r & Z) | Z]]; [left; exact Z | right; left; rewrite Z; eexists; eexists; reflexivity | right; right; exact Z].
  - destruct (nth_error (k_callers s) i) as [c |] eqn:E; [| discriminate]. injection H as <-. eapply begun_put; [exact B | exact E | reflexivity | exact (B _ _ E)].
  - destruct (nth_error (k_ports s) k) as [o |]; [| discriminate]. injection H as <-. exact B.
  - unfold caller_step in H. destruct (nth_error (k_callers s) i) as [c |] eqn:E; [| discriminate]. pose proof (B _ _ E) as Bc.
    destruct (a_phase c) eqn:Ph.
    + destruct (next_of (a_in c)) as [[x |] |] eqn:En; [| injection H as <-; eapply begun_put; [exact B | exact E | reflexivity | exact Bc] | discriminate].
      destruct (ci_ok _ _ _ CI _ _ E) as (G & _ & F & K4 & _ & _ & K7). rewrite Ph in K7. destruct (N.eqb_spec (a_n c) 0) as [Z | Z]; [discriminate |].
      assert (GO : forall fi, (fi = match x with SOk _ => false | _ => a_first c end) -> begun (mkCaller (a_sid c) fi (a_n c - 1) (read_one (a_in c)) (a_grants c) (a_used c) (if a_n c - 1 =? 0 then Waiting else Reading))).
      { intros fi Ef. unfold begun. cbn [a_in a_first read_one u_pos u_fed]. destruct Bc as [P0 | [X | (P1 & F1)]]; [| right; left; exact X |].
        - assert (Z1 : nth_error (u_fed (a_in c)) 0 = Some x /\ x <> SComplete).
          { unfold next_of in En. rewrite P0 in En. destruct (nth_error (u_fed (a_in c)) 0) as [[y | y |] |]; try discriminate; [| | destruct (u_live (a_in c)); discriminate]; injection En as <-; split; reflexivity || discriminate. }
          destruct Z1 as (Z1 & Z2). destruct x as [y | e |]; [| | congruence].
          + right. left. destruct (u_fed (a_in c)) as [| w r]; [discriminate |]. cbn [nth_error] in Z1. injection Z1 as ->. eexists. eexists. reflexivity.
          + right. right. split; [rewrite P0; reflexivity |]. rewrite Ef, F, P0. reflexivity.
        - exfalso. rewrite (NC _ _ E F1), P1, firstn_nil in K4. cbn [total fold_right] in K4. lia. }
      destruct x; injection H as <-; (eapply begun_put; [exact B | exact E | reflexivity | apply GO; reflexivity]).
    + destruct (nth_error (a_grants c) (a_used c)); [injection H as <-; eapply begun_put; [exact B | exact E | reflexivity | exact Bc] |].
      destruct (m_get (a_sid c) (k_channels s)) as [i' |]; [destruct (Nat.eqb i' i); [discriminate |] |]; injection H as <-; (eapply begun_put; [exact B | exact E | reflexivity | exact Bc]).
    + discriminate.
  - destruct (nth_error (k_serves s) j) as [v |]; [| discriminate]. destruct (serve_step v) as [[v' l] |]; [| discriminate]. injection H as <-.
    destruct (sends_fields j l (with_serves s (put (k_serves s) j v'))) as (_ & _ & _ & _ & E & _). unfold begun_all. rewrite E. exact B.
  - destruct (nth_error (k_serves s) j) as [v |]; [| discriminate]. destruct (may_feed v x); [| discriminate]. injection H as <-. exact B.
  - destruct (nth_error (k_serves s) j) as [v |]; [| discriminate]. destruct (v_started v); [| discriminate]. injection H as <-. exact B.
  - destruct g as [p | sid | sid code data | sid q | r | r | r | r]; cbn [process_once] in H.
    + injection H as <-. destruct (on_payload_fields (with_hist s (EFrame (RPayloadFrame p))) p) as (_ & _ & E & _). unfold begun_all. rewrite E. exact B.
    + destruct (on_cancel_fields _ _ _ H) as (_ & _ & E & _). unfold begun_all. rewrite E. exact B.
    + destruct (on_error_fields _ _ _ _ _ H) as (_ & _ & E & _). unfold begun_all. rewrite E. exact B.
    + injection H as <-. unfold on_request_n. destruct (q =? 0); [exact B |]. change (k_channels (with_hist s (EFrame (RRequestN sid q)))) with (k_channels s).
      change (k_callers (with_hist s (EFrame (RRequestN sid q)))) with (k_callers s). destruct (m_get sid (k_channels s)) as [i |]; [| exact B]. destruct (nth_error (k_callers s) i) as [c |] eqn:E; [| exact B].
      destruct (a_phase c); try exact B; (eapply begun_put; [exact B | exact E | reflexivity | exact (B _ _ E)]).
    + injection H as <-. exact B.
    + injection H as <-. exact B.
    + injection H as <-. exact B.
    + injection H as <-. exact B.
Qed.

Section Credit.
Variables (sdA sdB : sside) (mA kA mB kB : list kmove) (a b : sock) (dA dB : nat).
Hypothesis AB : apart sdA sdB.
Hypothesis HA : half sdA mA kA a b dA.
Hypothesis HB : half sdB mB kB b a dB.
Hypothesis LA : calls kA <= 2 ^ 31.
Hypothesis LB : calls kB <= 2 ^ 31.

(** Credit comes for a channel that was requested. *)
Lemma credit_from : forall au sid n, In (au, RRequestN sid n) (k_out b) -> exists j x, au = ByServe j /\ n = 0x7fffffff /\ nth_error (received (k_hist b)) j = Some (VChannel, sid, x) /\
  exists i c r, In (ByCaller i, RRequestChannel r) (k_out a) /\ rq_sid r = sid /\ nth_error (k_callers a) i = Some c /\ a_sid c = sid /\ a_first c = false.
Proof.
  intros au sid n H. pose proof (authors _ _ _ _ _ (hf_run _ _ _ _ _ _ HB) LB H) as X. destruct au as [| i | j |].
  - destruct X as (X & _). discriminate X.
  - destruct X as (X & _). discriminate X.
  - destruct X as (v & sid' & x & E & (Es & _ & _ & En)). cbn in Es. subst sid'. exists j, x. split; [reflexivity |]. split; [apply En; reflexivity |].
    assert (Ev : v = VChannel).
    { pose proof (said_in _ _ _ H) as S. destruct (served _ _ _ _ _ _ HB _ _ _ _ E) as ((c & P) & _). assert (I0 : In (RRequestN sid n) (owed v sid (given j mB) (negb (quit j mB)))) by (rewrite P; apply in_or_app; left; exact S).
      assert (ST : forall (l : list signal) (t : bool), ~ In (RRequestN sid n) (map (item_frame sid) l ++ if t then [end_frame sid] else [])).
      { intros l t Q. apply in_app_or in Q as [Q | Q]; [apply in_map_iff in Q as ([[d m] | e |] & Q & _); discriminate Q | destruct t; [destruct Q as [Q | []]; discriminate Q | destruct Q]]. }
      destruct v; [| | | reflexivity]; exfalso; cbn [owed] in I0.
      - apply in_flat_map in I0 as ([[d m] | e |] & _ & Q); [destruct Q as [Q | []]; discriminate Q | destruct Q as [Q | []]; discriminate Q | destruct Q].
      - apply in_flat_map in I0 as ([[d m] | e |] & _ & Q); [destruct Q | destruct Q as [Q | []]; discriminate Q | destruct Q].
      - exact (ST _ _ I0). }
    subst v. split; [exact E |]. apply nth_error_In in E. destruct (received_frame _ _ _ _ E) as (f & Hf & R & Ef & Er). destruct (from_other _ _ _ _ _ _ _ HB Hf) as (au & Hau).
    destruct (request_call _ _ _ _ _ _ HA LA _ _ Hau R) as [(k & y & _ & Z & _) | (i & c & r & -> & Z & Ec & Es & _)].
    + exfalso. rewrite Z in Er. destruct k; discriminate Er.
    + exists i, c, r. rewrite Z in Hau, Ef. split; [exact Hau |]. split; [exact Ef |]. split; [exact Ec |]. split; [congruence |].
      destruct (a_first c) eqn:F; [| reflexivity]. exfalso. destruct (asked_reached _ _ _ (hf_run _ _ _ _ _ _ HA) LA) as (_ & _ & A3). apply (A3 _ _ Ec F). unfold asked. apply in_map_iff. exists f. split; [congruence |].
      apply filter_In. split; [| exact R]. rewrite Z. apply in_map_iff. exists (ByCaller i, RRequestChannel r). split; [reflexivity | exact Hau].
  - destruct X as [(? & ? & ? & Q & _) | [(? & Q & _) | (? & ? & Q & _)]]; discriminate Q.
Qed.
Lemma granted_in : forall sid h n, In n (granted sid h) -> In (EFrame (RRequestN sid n)) h.
Proof.
  intros sid h n H. unfold granted in H. apply in_flat_map in H as (e & He & Q). destruct e as [| | f |]; try contradiction. destruct f; try contradiction. cbn [grant_in] in Q.
  destruct (N.eqb_spec sid0 sid) as [-> | Z]; cbn [andb] in Q; [| destruct Q]. destruct (negb (n0 =? 0)); [destruct Q as [<- | []]; exact He | destruct Q].
Qed.
Lemma no_credit_here : no_credit a.
Proof.
  intros i c Ec F. pose proof (callers_reached _ _ _ (hf_run _ _ _ _ _ _ HA) LA) as CI. destruct (ci_grants _ _ _ CI _ _ Ec) as (x & y & Eh & (z & P) & _). destruct (a_grants c) as [| n l] eqn:G; [reflexivity |]. exfalso.
  assert (I0 : In (EFrame (RRequestN (a_sid c) n)) (k_hist a)) by (rewrite Eh; apply in_or_app; right; right; apply granted_in; rewrite P; left; reflexivity).
  destruct (from_other _ _ _ _ _ _ _ HA I0) as (au & Hau). destruct (credit_from _ _ _ Hau) as (j & v & _ & _ & _ & i' & c' & r & _ & _ & Ec' & Es & F').
  assert (i' = i) as -> by (eapply (ci_once _ _ _ CI); [exact Ec' | exact Ec | exact Es]). congruence.
Qed.
(** And it comes once. *)
Definition is_rn (f : rframe) : bool := match f with RRequestN _ _ => true | _ => false end.
Lemma credit_once : forall au sid n, nth_error (k_out b) dA = Some (au, RRequestN sid n) -> ~ exists n', In (EFrame (RRequestN sid n')) (k_hist a).
Proof.
  intros au sid n E (n' & H). pose proof (nth_error_In _ _ E) as Hi. destruct (credit_from _ _ _ Hi) as (j & x & -> & _ & Er & _).
  apply frames_in in H. rewrite (hf_frames _ _ _ _ _ _ HA) in H. apply nth_error_split in E as (l1 & l2 & Eo & Ed).
  assert (F1 : firstn dA (k_out b) = l1) by (rewrite Eo, <- Ed, firstn_app, Nat.sub_diag, firstn_all, app_nil_r; reflexivity). rewrite F1 in H.
  pose proof (down_said _ _ _ _ _ _ _ _ _ _ AB HA HB LA LB _ _ _ _ Er) as S. destruct (served _ _ _ _ _ _ HB _ _ _ _ Er) as ((w & P) & _).
  assert (L : (length (filter is_rn (said (ByServe j) b)) <= 1)%nat).
  { assert (Z : (length (filter is_rn (owed VChannel sid (given j mB) (negb (quit j mB)))) <= 1)%nat).
    { cbn [owed filter is_rn length]. rewrite filter_none; [cbn; lia |]. intros f Q. apply in_app_or in Q as [Q | Q]; [apply in_map_iff in Q as ([[d m] | e |] & <- & _); reflexivity |].
      destruct (completed _ || _); [destruct Q as [<- | []]; reflexivity | destruct Q]. }
    rewrite P, filter_app, app_length in Z. lia. }
  rewrite <- S, Eo, map_app in L. unfold on, uncancelled in L. rewrite !filter_app, app_length in L. cbn [map snd filter RustStreamModel.rframe_sid] in L. rewrite N.eqb_refl in L. cbn [filter is_rn length] in L.
  assert (Q : In (RRequestN sid n') (filter is_rn (filter (fun f => match f with RCancel _ => false | _ => true end) (filter (fun f => sid_of f =? sid) (map snd l1))))).
  { apply filter_In. split; [| reflexivity]. apply filter_In. split; [| reflexivity]. apply filter_In. split; [exact H | apply N.eqb_refl]. }
  destruct (filter is_rn (filter (fun f => match f with RCancel _ => false | _ => true end) (filter (fun f => sid_of f =? sid) (map snd l1)))); [destruct Q | cbn [length] in L; lia].
Qed.
Lemma quiet_frame : forall au f a', quiet a -> nth_error (k_out b) dA = Some (au, f) -> k_move a (KFrame f) = Some a' -> quiet a'.
Proof.
  intros au f a' Q E H. cbn [k_move] in H. destruct (frame_out _ _ _ H) as [Z | [(sid & Z) | (sid & n & -> & Z)]].
  - intros g Hg. rewrite Z in Hg. exact (Q _ Hg).
  - intros g Hg. rewrite Z in Hg. apply in_app_or in Hg as [Hg | [Hg | []]]; [exact (Q _ Hg) | injection Hg as <-; eexists; reflexivity].
  - exfalso. destruct (credit_from _ _ _ (nth_error_In _ _ E)) as (j & x & -> & -> & _ & i & c & r & Hr & Er & Ec & Es & F). pose proof (callers_reached _ _ _ (hf_run _ _ _ _ _ _ HA) LA) as CI.
    assert (Ph : a_phase c <> Ended).
    { intro Ph. destruct (ci_ok _ _ _ CI _ _ Ec) as (_ & _ & K3 & K4 & _ & _ & K7). rewrite Ph in K7. apply (credit_once _ _ _ E). destruct (ci_grants _ _ _ CI _ _ Ec) as (y & z & Eh & (w & P) & _).
      assert (Pos : u_pos (a_in c) <> 0%nat) by (intro Z0; rewrite Z0 in K3; cbn in K3; congruence). assert (G : a_grants c <> []) by (intro G; rewrite G, firstn_nil in K4; cbn [total fold_right] in K4; lia).
      destruct (a_grants c) as [| n' l]; [congruence |]. exists n'. rewrite Eh. apply in_or_app. right. right. apply granted_in. rewrite <- Es, P. left. reflexivity. }
    assert (Eg : m_get sid (k_channels a) = Some i) by (apply (ci_get _ _ _ CI); exists c; auto).
    destruct Z as [Z | [Z | (i' & c' & Z1 & Z2 & Z3)]]; [discriminate Z | congruence |]. rewrite Eg in Z1. injection Z1 as <-. congruence.
Qed.
End Credit.

Definition good_pair (sd : sside) (ms : list pmove) (p : pair) : Prop :=
  (quiet (p_a p) /\ quiet (p_b p)) /\ begun_all (p_a p) /\ begun_all (p_b p).
Lemma half_calls : forall sd ms kms s t d, half sd ms kms s t d -> calls kms = calls ms.
Proof. intros sd ms kms s t d V. rewrite <- (hf_ms _ _ _ _ _ _ V), calls_nf. reflexivity. Qed.
Lemma good_reached : forall sd ms p, p_moves (new_pair sd) ms = Some p -> few ms -> good_pair sd ms p.
Proof.
  intros sd. apply (p_moves_ind (fun ms p => few ms -> good_pair sd ms p)).
  - intros _. split; split; [intros f [] | intros f [] | |]; intros i c E; destruct i; discriminate E.
  - intros ms p m p' IH R H F. assert (F0 : few ms).
    { destruct F as (F1 & F2). rewrite side_a_snoc in F1. rewrite side_b_snoc in F2. pose proof (calls_le (side_a ms) (match m with PA m => [m] | _ => [] end)). pose proof (calls_le (side_b ms) (match m with PB m => [m] | _ => [] end)). split; lia. }
    destruct (IH F0) as ((Q1 & Q2) & B1 & B2). destruct (pair_reached _ _ _ R F0) as (kA & kB & HA & HB). destruct (apart_other sd) as (AB & BA). destruct F0 as (FA & FB).
    assert (LA : calls kA <= 2 ^ 31) by (rewrite (half_calls _ _ _ _ _ _ HA); exact FA). assert (LB : calls kB <= 2 ^ 31) by (rewrite (half_calls _ _ _ _ _ _ HB); exact FB).
    pose proof (callers_reached _ _ _ (hf_run _ _ _ _ _ _ HA) LA) as CA. pose proof (callers_reached _ _ _ (hf_run _ _ _ _ _ _ HB) LB) as CB.
    pose proof (no_credit_here _ _ _ _ _ _ _ _ _ _ HA HB LA LB) as NA. pose proof (no_credit_here _ _ _ _ _ _ _ _ _ _ HB HA LB LA) as NB.
    destruct m as [m | m | |]; cbn [p_move] in H.
    + destruct (not_frame m) eqn:NF; [| discriminate]. destruct (k_move (p_a p) m) as [a' |] eqn:E; [| discriminate]. injection H as <-. split; split; cbn [p_a p_b]; try assumption.
      * eapply quiet_local; [| exact E | exact NF]; assumption.
      * eapply begun_move; [| | | exact E]; eassumption.
    + destruct (not_frame m) eqn:NF; [| discriminate]. destruct (k_move (p_b p) m) as [b' |] eqn:E; [| discriminate]. injection H as <-. split; split; cbn [p_a p_b]; try assumption.
      * eapply quiet_local; [| exact E | exact NF]; assumption.
      * eapply begun_move; [| | | exact E]; eassumption.
    + destruct (nth_error (k_out (p_b p)) (p_da p)) as [[au f] |] eqn:En; [| discriminate]. destruct (k_move (p_a p) (KFrame f)) as [a' |] eqn:E; [| discriminate]. injection H as <-. split; split; cbn [p_a p_b]; try assumption.
      * eapply quiet_frame; [exact AB | exact HA | exact HB | exact LA | exact LB | exact Q1 | exact En | exact E].
      * eapply begun_move; [| | | exact E]; eassumption.
    + destruct (nth_error (k_out (p_a p)) (p_db p)) as [[au f] |] eqn:En; [| discriminate]. destruct (k_move (p_b p) (KFrame f)) as [b' |] eqn:E; [| discriminate]. injection H as <-. split; split; cbn [p_a p_b]; try assumption.
      * eapply quiet_frame; [exact BA | exact HB | exact HA | exact LB | exact LA | exact Q2 | exact En | exact E].
      * eapply begun_move; [| | | exact E]; eassumption.
Qed.

(** ** What the input of a channel tells *)

Lemma heard_input : forall sid (t : bool) l, heard ReqRC (all_there (channel_frames sid false (until_complete l) ++ if t then [end_frame sid] else [])) = input_of l.
Proof.
  intros sid t l. induction l as [| x l IH].
  - cbn [until_complete channel_frames app]. destruct t; reflexivity.
  - destruct x as [[d m] | e |]; cbn [until_complete channel_frames app input_of].
    + cbn [all_there map heard tells rp_next rp_data rp_metadata final rp_complete app]. f_equal. exact IH.
    + reflexivity.
    + destruct t; reflexivity.
Qed.
Lemma channel_prefix : forall sid (t : bool) n l, (t = true -> (length (until_complete l) <= n)%nat) -> prefix (channel_frames sid false (firstn n (until_complete l)) ++ if t then [end_frame sid] else []) (channel_frames sid false (until_complete l) ++ [end_frame sid]).
Proof.
  intros sid t n l T. destruct t.
  - rewrite firstn_all2 by (apply T; reflexivity). apply prefix_refl.
  - rewrite app_nil_r. exists (channel_frames sid (false && negb (existsb is_ok (firstn n (until_complete l)))) (skipn n (until_complete l)) ++ [end_frame sid]). rewrite app_assoc, <- channel_frames_app, firstn_skipn. reflexivity.
Qed.
Lemma not_requests : forall sid l f, In f (channel_frames sid false l) -> is_request f = false.
Proof.
  intros sid. induction l as [| x l IH]; intros f H; [destruct H |]. destruct x as [[d m] | e |]; cbn [channel_frames] in H; destruct H as [<- | H]; try reflexivity; exact (IH _ H).
Qed.
Lemma uncancelled_app : forall x y, uncancelled (x ++ y) = uncancelled x ++ uncancelled y.
Proof. intros x y. apply filter_app. Qed.
Lemma uncancelled_id : forall l, (forall sid, ~ In (RCancel sid) l) -> uncancelled l = l.
Proof.
  induction l as [| f l IH]; intro H; [reflexivity |]. unfold uncancelled in *. cbn [filter]. destruct f; try (rewrite IH by (intros s Q; apply (H s); right; exact Q); reflexivity). exfalso. apply (H sid). left. reflexivity.
Qed.
Lemma on_app : forall sid x y, on sid (x ++ y) = on sid x ++ on sid y.
Proof. intros sid x y. apply filter_app. Qed.

Section Up.
Variables (sdA sdB : sside) (mA kA mB kB : list kmove) (a b : sock) (dA dB : nat).
Hypothesis AB : apart sdA sdB.
Hypothesis HA : half sdA mA kA a b dA.
Hypothesis HB : half sdB mB kB b a dB.
Hypothesis LA : calls kA <= 2 ^ 31.
Hypothesis LB : calls kB <= 2 ^ 31.
Hypothesis QA : quiet a.
Hypothesis BA : begun_all a.

Lemma caller_call : forall i c, nth_error (k_callers a) i = Some c -> call_of sdA mA (a_sid c) KChannel.
Proof.
  intros i c E. pose proof (channel_in _ _ _ _ _ _ HA LA _ _ E) as Hc. rewrite (hist_reached _ _ _ (hf_run _ _ _ _ _ _ HA)) in Hc. apply channels_at in Hc as (n & En & ->). eapply call_idc; [exact HA | exact En].
Qed.
Lemma caller_own : forall i c, nth_error (k_callers a) i = Some c -> own sdA (a_sid c).
Proof. intros i c E. destruct (ci_ids _ _ _ (callers_reached _ _ _ (hf_run _ _ _ _ _ _ HA) LA) _ _ E) as (n & _ & ->). apply nth_id_own. Qed.
Lemma up_said : forall i c, nth_error (k_callers a) i = Some c -> uncancelled (on (a_sid c) (map snd (k_out a))) = said (ByCaller i) a.
Proof.
  intros i c E. pose proof (caller_own _ _ E) as O. pose proof (callers_reached _ _ _ (hf_run _ _ _ _ _ _ HA) LA) as CI. unfold said, uncancelled, on.
  rewrite (filter_ext_map _ _ snd (fun x => author_eqb (fst x) (ByCaller i)) (fun f => (sid_of f =? a_sid c) && match f with RCancel _ => false | _ => true end)).
  - generalize (map snd (k_out a)). intro l. induction l as [| f l IH]; [reflexivity |]. cbn [filter]. destruct (sid_of f =? a_sid c); cbn [andb filter]; [| exact IH]. rewrite IH. destruct f; reflexivity.
  - intros (au, f) Hf. cbn [fst snd]. pose proof (authors _ _ _ _ _ (hf_run _ _ _ _ _ _ HA) LA Hf) as X.
    assert (CF : forall i', au = ByCaller i' -> exists c', nth_error (k_callers a) i' = Some c' /\ sid_of f = a_sid c').
    { intros i' ->. pose proof (said_in _ _ _ Hf) as S. destruct (nth_error (k_callers a) i') as [c' |] eqn:Ec; [| apply nth_error_None in Ec; rewrite (ci_none _ _ _ CI _ Ec) in S; destruct S].
      exists c'. split; [reflexivity |]. destruct (ci_ok _ _ _ CI _ _ Ec) as (_ & Ew & _). rewrite Ew in S. apply in_app_or in S as [S | S]; [eapply channel_sids; exact S |].
      destruct (ended c'); [destruct S as [<- | []]; reflexivity | destruct S]. }
    destruct (N.eqb_spec (sid_of f) (a_sid c)) as [Es | Es]; cbn [andb].
    + destruct au as [| i' | j |]; cbn [author_eqb].
      * exfalso. assert (R : is_request f = true) by (pose proof (said_in _ _ _ Hf) as S; rewrite (proj2 (next_reached _ _ _ (hf_run _ _ _ _ _ _ HA))) in S; apply requests_ids in S as (S & _); exact S).
        destruct (request_call _ _ _ _ _ _ HA LA _ _ Hf R) as [(k & y & _ & _ & C) | (i' & c' & r & Z & _)]; [| discriminate Z]. rewrite Es in C. pose proof (caller_call _ _ E) as C'.
        assert (Z : KCall k y = KChannel); [| discriminate Z]. eapply call_unique; [| exact C | exact C']. rewrite <- (half_calls _ _ _ _ _ _ HA). exact LA.
      * destruct (CF _ eq_refl) as (c' & Ec' & Es'). assert (i' = i) as -> by (eapply (ci_once _ _ _ CI); [exact Ec' | exact E | congruence]). rewrite Nat.eqb_refl. destruct X as (X & _). destruct f; reflexivity || discriminate X.
      * exfalso. destruct X as (v & sid & x & Ej & (Es' & _)). pose proof (received_own _ _ _ _ _ _ _ _ _ _ HB HA LB _ _ _ _ Ej) as O'. apply (AB (a_sid c)); [exact O |]. congruence.
      * destruct (QA _ Hf) as (sid & ->). reflexivity.
    + destruct au as [| i' | j |]; try reflexivity. cbn [author_eqb]. destruct (Nat.eqb_spec i' i) as [-> | Q]; [| reflexivity]. destruct (CF _ eq_refl) as (c' & Ec' & Es'). rewrite E in Ec'. injection Ec' as <-. congruence.
Qed.
(** A Cancel is for a receiver that was dropped. *)
Lemma up_plain : forall sid, (forall k o, nth_error (k_ports a) k = Some o -> o_sid o = sid -> drops k mA = false) -> own sdA sid -> forall x, ~ In (RCancel x) (on sid (map snd (k_out a))).
Proof.
  intros sid D O x H. apply filter_In in H as (H & Es). cbn [RustStreamModel.rframe_sid] in Es. apply N.eqb_eq in Es. subst x. apply in_map_iff in H as ((au, f) & Ef & Hf). cbn [snd] in Ef. subst f.
  pose proof (authors _ _ _ _ _ (hf_run _ _ _ _ _ _ HA) LA Hf) as X. destruct au as [| i | j |].
  - destruct X as (X & _). discriminate X.
  - destruct X as (X & _). discriminate X.
  - destruct X as (v & s & y & _ & (_ & _ & Q & _)). exact (Q _ eq_refl).
  - destruct X as [(s & k & h & Z & _ & Ho & Hd) | [(s & Z & _) | (s & n & Z & _)]]; try discriminate Z. injection Z as <-. destruct (opened_at _ _ _ _ _ _ (hf_run _ _ _ _ _ _ HA) Ho) as (o & Eo & Eso & _). pose proof (D _ _ Eo Eso) as D0.
    rewrite (hist_reached _ _ _ (hf_run _ _ _ _ _ _ HA)) in Hd. apply drops_at in Hd.
    assert (Y : In (KDrop k) (filter not_frame kA)) by (apply filter_In; split; [exact Hd | reflexivity]). rewrite (hf_ms _ _ _ _ _ _ HA) in Y. unfold drops in D0.
    assert (Z : existsb (fun m => match m with KDrop k' => Nat.eqb k' k | _ => false end) mA = true) by (apply existsb_exists; exists (KDrop k); split; [exact Y | apply Nat.eqb_refl]). congruence.
Qed.

(** A channel that asked: its input begins with the item of its request. *)
Lemma asked_channel : forall i c, nth_error (k_callers a) i = Some c -> a_first c = false -> exists d m r n (t : bool), fed i mA = SOk (d, m) :: r /\ (t = true -> (length (until_complete r) <= n)%nat) /\
  said (ByCaller i) a = RRequestChannel (mkRRequest TRequestChannel (a_sid c) m d false false 0x7fffffff) :: channel_frames (a_sid c) false (firstn n (until_complete r)) ++ if t then [end_frame (a_sid c)] else [].
Proof.
  intros i c E F. pose proof (callers_reached _ _ _ (hf_run _ _ _ _ _ _ HA) LA) as CI. destruct (ci_ok _ _ _ CI _ _ E) as (G & Ew & K3 & _). destruct (proj1 (inputs_reached _ _ _ (hf_run _ _ _ _ _ _ HA)) _ _ E) as (Ef & _).
  rewrite <- (hf_ms _ _ _ _ _ _ HA), fed_nf, <- Ef. rewrite F in K3. destruct (BA _ _ E) as [Z | [(y & r & Z) | (_ & Z)]]; [rewrite Z in K3; discriminate K3 | | congruence]. destruct y as [d m].
  rewrite (good_first _ _ G) in Ew, K3. destruct (u_pos (a_in c)) as [| n] eqn:P; [discriminate K3 |]. exists d, m, r, n, (ended c). rewrite Z in *. split; [reflexivity |]. split.
  - intro T. rewrite T in G. destruct (good_over _ G) as (U & _). rewrite Z, P in U. cbn [until_complete firstn] in U. injection U as U. rewrite U. rewrite firstn_length. lia.
  - rewrite Ew. reflexivity.
Qed.
Lemma asked_input : forall j sid x, nth_error (received (k_hist b)) j = Some (VChannel, sid, x) -> exists i c r, nth_error (k_callers a) i = Some c /\ a_sid c = sid /\ a_first c = false /\ fed i mA = SOk x :: r.
Proof.
  intros j sid x E. apply nth_error_In in E. destruct (received_frame _ _ _ _ E) as (f & Hf & R & Es & Er). destruct (from_other _ _ _ _ _ _ _ HB Hf) as (au & Hau).
  destruct (request_call _ _ _ _ _ _ HA LA _ _ Hau R) as [(k & y & _ & Z & _) | (i & c & r & -> & Z & Ec & Es' & _)]; [exfalso; rewrite Z in Er; destruct k; discriminate Er |].
  assert (F : a_first c = false).
  { destruct (a_first c) eqn:F; [| reflexivity]. exfalso. destruct (asked_reached _ _ _ (hf_run _ _ _ _ _ _ HA) LA) as (_ & _ & A3). apply (A3 _ _ Ec F). unfold asked. apply in_map_iff. exists f. split; [congruence |].
    apply filter_In. split; [| exact R]. apply in_map_iff. exists (ByCaller i, f). split; [reflexivity | exact Hau]. }
  destruct (asked_channel _ _ Ec F) as (d & m & l & n & t & Ef & _ & Ew). exists i, c, l. split; [exact Ec |]. split; [congruence |]. split; [exact F |]. rewrite Ef. f_equal. f_equal.
  apply said_in in Hau. rewrite Ew in Hau. destruct Hau as [Hau | Hau].
  - rewrite <- Hau in Er. cbn in Er. congruence.
  - exfalso. apply in_app_or in Hau as [Q | Q]; [rewrite (not_requests _ _ _ Q) in R; discriminate R |]. destruct t; [destruct Q as [Q | []]; rewrite <- Q in R; discriminate R | destruct Q].
Qed.

(** All that a channel's task is to say is said at rest. *)
Lemma asked_rest : forall i c d m r, nth_error (k_callers a) i = Some c -> a_first c = false -> fed i mA = SOk (d, m) :: r -> k_move a (KCaller i) = None -> dA = length (k_out b) -> dB = length (k_out a) ->
  (forall j, k_move b (KServe j) = None) -> len (until_complete (fed i mA)) <= 2 ^ 31 ->
  exists t : bool, said (ByCaller i) a = RRequestChannel (mkRRequest TRequestChannel (a_sid c) m d false false 0x7fffffff) :: channel_frames (a_sid c) false (until_complete r) ++ if t then [end_frame (a_sid c)] else [].
Proof.
  intros i c d m r E F Ef Q DA DB RB L. pose proof (hf_run _ _ _ _ _ _ HA) as RA. pose proof (callers_reached _ _ _ RA LA) as CI. destruct (ci_ok _ _ _ CI _ _ E) as (G & Ew & K3 & K4 & K5 & _ & K7).
  destruct (proj1 (inputs_reached _ _ _ RA) _ _ E) as (Eu & _). rewrite <- (hf_ms _ _ _ _ _ _ HA), fed_nf, <- Eu in Ef, L. exists (ended c).
  assert (W : until_complete (u_fed (a_in c)) = firstn (u_pos (a_in c)) (u_fed (a_in c))).
  { cbn [k_move] in Q. unfold caller_step in Q. rewrite E in Q. unfold ended in G. destruct (a_phase c) eqn:Ph.
    - destruct (next_of (a_in c)) as [[x |] |] eqn:En; [| discriminate |].
      + destruct (N.eqb_spec (a_n c) 0); [lia |]. destruct x; discriminate.
      + apply good_idle; assumption.
    - destruct (nth_error (a_grants c) (a_used c)) eqn:Eg; [discriminate |]. apply nth_error_None in Eg. rewrite (firstn_all2 (a_grants c)) in K4 by lia.
      destruct (ci_grants _ _ _ CI _ _ E) as (x & y & Eh & _ & P). rewrite (P ltac:(congruence)) in K4.
      (* the credit came *)
      assert (GR : In 0x7fffffff (granted (a_sid c) y)).
      { assert (I0 : exists au, In (au, RRequestN (a_sid c) 0x7fffffff) (k_out b)).
        { destruct (asked_channel _ _ E F) as (d' & m' & l' & n' & t' & _ & _ & Ew'). assert (S : In (RRequestChannel (mkRRequest TRequestChannel (a_sid c) m' d' false false 0x7fffffff)) (said (ByCaller i) a)) by (rewrite Ew'; left; reflexivity).
          unfold said in S. apply in_map_iff in S as ((au, g) & Eg' & S). cbn [snd] in Eg'. subst g. apply filter_In in S as (S & _).
          assert (Hb : In (EFrame (RRequestChannel (mkRRequest TRequestChannel (a_sid c) m' d' false false 0x7fffffff))) (k_hist b)) by (apply frames_in; rewrite (hf_frames _ _ _ _ _ _ HB), DB, firstn_all; apply in_map_iff; eexists; split; [| exact S]; reflexivity).
          assert (R : In (VChannel, a_sid c, (d', m')) (received (k_hist b))) by (unfold received; apply in_flat_map; eexists; split; [exact Hb | left; reflexivity]).
          apply In_nth_error in R as (j & R). destruct (served _ _ _ _ _ _ HB _ _ _ _ R) as (_ & S2 & _). specialize (S2 (RB j)). exists (ByServe j).
          assert (S3 : In (RRequestN (a_sid c) 0x7fffffff) (said (ByServe j) b)) by (rewrite S2; left; reflexivity). unfold said in S3. apply in_map_iff in S3 as ((au', g) & Eg' & S3). cbn [snd] in Eg'. subst g.
          apply filter_In in S3 as (S3 & A3). cbn [fst] in A3. destruct au'; try discriminate A3. cbn [author_eqb] in A3. apply Nat.eqb_eq in A3. subst. exact S3. }
        destruct I0 as (au & I0). assert (Ha : In (RRequestN (a_sid c) 0x7fffffff) (frames (k_hist a))) by (rewrite (hf_frames _ _ _ _ _ _ HA), DA, firstn_all; apply in_map_iff; eexists; split; [| exact I0]; reflexivity).
        destruct (paired_reached _ _ _ RA _ _ _ _ Eh) as (z & k & Ez). rewrite Eh, Ez, <- app_assoc in Ha. cbn [app] in Ha. rewrite frames_app in Ha. apply in_app_or in Ha as [Ha | Ha].
        - exfalso. rewrite Ez, <- app_assoc in Eh. cbn [app] in Eh. destruct (hf_time _ _ _ _ _ _ HA _ _ _ _ _ Eh (caller_own _ _ E)) as (T & _). exact (T _ Ha eq_refl).
        - apply frames_in in Ha. destruct Ha as [Ha | [Ha | Ha]]; [discriminate Ha | discriminate Ha |]. unfold granted. apply in_flat_map. eexists. split; [exact Ha |]. cbn [grant_in]. rewrite N.eqb_refl. left. reflexivity. }
      assert (TG : 0x7fffffff <= total (granted (a_sid c) y)).
      { clear -GR. induction (granted (a_sid c) y) as [| z l IH]; [destruct GR |]. cbn [total fold_right]. fold (total l). destruct GR as [-> | GR]; [lia |]. specialize (IH GR). lia. }
      destruct (good_until _ _ G) as (w & U). unfold len in L. rewrite U, app_length, firstn_length_le in L by apply G. change (2 ^ 31) with 2147483648 in L. assert (w = []) as -> by (destruct w; [reflexivity | cbn [length] in L; lia]).
      rewrite U, app_nil_r. reflexivity.
    - apply good_over. exact G. }
  rewrite Ew, <- W, Ef. reflexivity.
Qed.

Lemma nodup_middle : forall A (x y z : list A) u, NoDup (x ++ u :: y ++ u :: z) -> False.
Proof. intros A x y z u D. apply NoDup_remove_2 in D. apply D. apply in_or_app. right. apply in_or_app. right. left. reflexivity. Qed.
Lemma up_channel : forall k o, nth_error (k_ports b) k = Some o -> own sdA (o_sid o) -> exists i, In (EChannel i (o_sid o)) (k_hist a) /\ prefix (o_log o) (input_of (fed i mA)) /\
  (drops k mB = false -> (forall k' o', nth_error (k_ports a) k' = Some o' -> o_sid o' = o_sid o -> drops k' mA = false) -> k_move a (KCaller i) = None -> dA = length (k_out b) -> dB = length (k_out a) ->
   (forall j, k_move b (KServe j) = None) -> len (until_complete (fed i mA)) <= 2 ^ 31 -> o_log o = input_of (fed i mA)).
Proof.
  intros k o E O. pose proof (hf_run _ _ _ _ _ _ HB) as RB. destruct (settled_reached _ _ _ RB) as ((_ & _ & K) & _). destruct (K _ _ E) as (before & after & (Eh & Eo) & (_ & Lg & _)).
  pose proof Eh as Eh'. rewrite (hist_reached _ _ _ RB) in Eh'. destruct (events_split _ _ _ _ _ _ _ _ _ Eh') as (_ & [(c & m & _ & Es & _) | (Ek & r & x & Ex & Es)]).
  { exfalso. apply (AB (o_sid o)); [exact O |]. rewrite Es, idc_first. apply nth_id_own. }
  set (sid := o_sid o) in *. assert (Eb : k_hist b = x ++ EFrame (RRequestChannel r) :: EOpen k (o_kind o) sid :: after) by (rewrite Eh, Ex, <- app_assoc; reflexivity).
  assert (OW : opens_with before = [NItem (rq_data r, rq_metadata r)]) by (unfold opens_with; rewrite Ex, rev_app_distr; reflexivity).
  assert (ND : NoDup (map sid_of (filter is_request (frames (k_hist b))))) by (rewrite <- received_sids; eapply received_nodup; [exact HA | exact HB | exact LA]).
  assert (DI : displaced sid after = false).
  { destruct (displaced sid after) eqn:D; [| reflexivity]. exfalso. unfold displaced in D. apply existsb_exists in D as (e & He & Ee). destruct e as [k' h' s' | | |]; try discriminate Ee. apply N.eqb_eq in Ee. subst s'.
    apply in_split in He as (u & w & Eu). assert (E2 : k_hist b = (x ++ EFrame (RRequestChannel r) :: EOpen k (o_kind o) sid :: u) ++ EOpen k' h' sid :: w) by (rewrite Eb, Eu, <- app_assoc; reflexivity).
    pose proof E2 as E3. rewrite (hist_reached _ _ _ RB) in E3. destruct (events_split _ _ _ _ _ _ _ _ _ E3) as (_ & [(c & m & _ & Es' & _) | (_ & r' & x' & Ex' & Es')]).
    { apply (AB sid); [exact O |]. rewrite Es', idc_first. apply nth_id_own. }
    destruct u as [| e u0] using rev_ind.
    { change (x ++ [EFrame (RRequestChannel r); EOpen k (o_kind o) sid]) with (x ++ [EFrame (RRequestChannel r)] ++ [EOpen k (o_kind o) sid]) in Ex'. rewrite app_assoc in Ex'. apply app_inj_tail in Ex' as (_ & Z). discriminate Z. }
    assert (Ex2 : (x ++ EFrame (RRequestChannel r) :: EOpen k (o_kind o) sid :: u0) ++ [e] = x' ++ [EFrame (RRequestChannel r')]) by (rewrite <- Ex', <- app_assoc; reflexivity).
    apply app_inj_tail in Ex2 as (_ & ->). rewrite Eb, Eu in ND. rewrite <- app_assoc in ND. cbn [app] in ND. rewrite !frames_app in ND. cbn [frames flat_map app] in ND. rewrite flat_map_app in ND. cbn [flat_map app] in ND.
    rewrite !filter_app in ND. cbn [filter is_request] in ND. rewrite filter_app in ND. cbn [filter is_request] in ND. rewrite !map_app in ND. cbn [map RustStreamModel.rframe_sid] in ND. rewrite map_app in ND. cbn [map RustStreamModel.rframe_sid] in ND. rewrite Es, Es' in ND. exact (nodup_middle _ _ _ _ _ ND). }
  rewrite OW in Lg. change (o_log o = NItem (rq_data r, rq_metadata r) :: heard (o_kind o) (mine k sid true after)) in Lg. rewrite Ek in Lg. pose proof (heard_mine ReqRC k sid after) as (M1 & M2). rewrite mine_frames in M1, M2 by exact DI.
  assert (R : In (VChannel, sid, (rq_data r, rq_metadata r)) (received (k_hist b))) by (rewrite Eb; unfold received; apply in_flat_map; eexists; split; [apply in_or_app; right; left; reflexivity | left; rewrite <- Es; reflexivity]).
  apply In_nth_error in R as (j & R). destruct (asked_input _ _ _ R) as (i & c & l & Ec & Ecs & F & Ef). destruct (asked_channel _ _ Ec F) as (d & m & l' & n & t & Ef' & T & Ew). rewrite Ef in Ef'.
  assert (Er : (rq_data r, rq_metadata r) = (d, m)) by congruence. assert (El : l = l') by congruence. subst l'. clear Ef'. rewrite Er in *.
  exists i. split; [rewrite <- Ecs; eapply channel_in; [exact HA | exact LA | exact Ec] |].
  (* the frames of the stream *)
  pose proof (up_said _ _ Ec) as U. rewrite Ecs in U, Ew. assert (FR : on sid (frames x) ++ RRequestChannel r :: on sid (frames after) = on sid (map snd (firstn dB (k_out a)))).
  { rewrite <- (hf_frames _ _ _ _ _ _ HB), Eb, frames_app, on_app. f_equal. cbn [frames flat_map app]. unfold on at 2. cbn [filter RustStreamModel.rframe_sid]. rewrite Es, N.eqb_refl. reflexivity. }
  assert (PF : prefix (uncancelled (on sid (frames x)) ++ RRequestChannel r :: uncancelled (on sid (frames after))) (said (ByCaller i) a)).
  { rewrite <- U. change (RRequestChannel r :: uncancelled (on sid (frames after))) with (uncancelled (RRequestChannel r :: on sid (frames after))). rewrite <- uncancelled_app, FR. apply prefix_filter, prefix_filter, prefix_map, prefix_firstn. }
  assert (TL : forall W t0 q, said (ByCaller i) a = RRequestChannel q :: channel_frames sid false W ++ (if t0 : bool then [end_frame sid] else []) -> uncancelled (on sid (frames x)) = [] /\ prefix (uncancelled (on sid (frames after))) (channel_frames sid false W ++ if t0 then [end_frame sid] else [])).
  { intros W t0 q EW. destruct PF as (w & P). rewrite EW in P. destruct (uncancelled (on sid (frames x))) as [| z zs]; cbn [app] in P.
    - split; [reflexivity |]. exists w. injection P as _ P. exact P.
    - exfalso. injection P as _ P. assert (I0 : In (RRequestChannel r) (channel_frames sid false W ++ if t0 then [end_frame sid] else [])) by (rewrite P; apply in_or_app; left; apply in_or_app; right; left; reflexivity).
      apply in_app_or in I0 as [I0 | I0]; [apply not_requests in I0; discriminate I0 |]. destruct t0; [destruct I0 as [I0 | []]; discriminate I0 | destruct I0]. }
  split.
  - rewrite Lg, Ef. cbn [input_of]. assert (P : prefix (heard ReqRC (mine k sid true after)) (input_of l)).
    { destruct (TL _ _ _ Ew) as (_ & P). eapply prefix_trans; [exact M1 |]. eapply prefix_trans; [apply heard_uncancelled; discriminate |]. rewrite <- (heard_input sid true l). apply heard_prefix. eapply prefix_trans; [exact P |]. apply channel_prefix. exact T. }
    destruct P as (w & P). exists w. rewrite P. reflexivity.
  - intros D DA' Q DA DB RS L. destruct (asked_rest _ _ _ _ _ Ec F Ef Q DA DB RS L) as (t0 & EW). rewrite Ecs in EW.
    assert (NC : forall y, ~ In (RCancel y) (on sid (map snd (k_out a)))) by (apply up_plain; [exact DA' | exact O]). rewrite (uncancelled_id _ NC) in U. rewrite DB, firstn_all, U in FR.
    assert (X1 : on sid (frames x) = []).
    { destruct (TL _ _ _ EW) as (Z & _). rewrite uncancelled_id in Z; [exact Z |]. intros y Hy. apply (NC y). rewrite U, <- FR. apply in_or_app. left. exact Hy. }
    rewrite X1 in FR. cbn [app] in FR. rewrite EW in FR. injection FR as _ FR.
    rewrite Lg, Ef. cbn [input_of]. f_equal. rewrite M2, FR; [apply heard_input |]. eapply not_dropped; [exact HB | exact D | exact Eh].
Qed.
(** A channel is requested exactly if its input begins with an item. *)
Lemma channel_asked : forall i sid, In (EChannel i sid) (k_hist a) ->
  ((exists j x, nth_error (received (k_hist b)) j = Some (VChannel, sid, x)) -> exists x r, fed i mA = SOk x :: r) /\
  (dB = length (k_out a) -> k_move a (KCaller i) = None -> forall x r, fed i mA = SOk x :: r -> exists j, nth_error (received (k_hist b)) j = Some (VChannel, sid, x)).
Proof.
  intros i sid H. pose proof (hf_run _ _ _ _ _ _ HA) as RA. pose proof (callers_reached _ _ _ RA LA) as CI. destruct (channel_of _ _ _ _ _ RA LA H) as (_ & _ & c & _ & Ec & Es & K & Eu & _). split.
  - intros (j & x & Ej). destruct (asked_input _ _ _ Ej) as (i' & c' & r & Ec' & Es' & _ & Ef). assert (i' = i) as -> by (eapply (ci_once _ _ _ CI); [exact Ec' | exact Ec | congruence]). eauto.
  - intros DB Q x r Ef. rewrite <- (hf_ms _ _ _ _ _ _ HA), fed_nf, <- Eu in Ef. assert (F : a_first c = false).
    { destruct K as (G & Ew & K3 & K4 & K5 & _ & K7). rewrite K3. destruct (u_pos (a_in c)) as [| n] eqn:P; [| rewrite Ef; destruct x; reflexivity]. exfalso. cbn [k_move] in Q. unfold caller_step in Q. rewrite Ec in Q. unfold ended in G. destruct (a_phase c) eqn:Ph.
      - unfold next_of in Q. rewrite P, Ef in Q. cbn [nth_error] in Q. destruct (N.eqb_spec (a_n c) 0); [lia | discriminate Q].
      - lia.
      - destruct G as (_ & _ & G). rewrite P, Ef in G. destruct (G eq_refl) as [Z | (Z & _)]; discriminate Z. }
    destruct (asked_channel _ _ Ec F) as (d & m & l & n & t & Ef' & _ & Ew). rewrite <- (hf_ms _ _ _ _ _ _ HA), fed_nf, <- Eu, Ef in Ef'. assert (x = (d, m)) as -> by congruence.
    assert (S : In (RRequestChannel (mkRRequest TRequestChannel (a_sid c) m d false false 0x7fffffff)) (said (ByCaller i) a)) by (rewrite Ew; left; reflexivity).
    unfold said in S. apply in_map_iff in S as ((au, g) & Eg' & S). cbn [snd] in Eg'. subst g. apply filter_In in S as (S & _).
    assert (Hb : In (EFrame (RRequestChannel (mkRRequest TRequestChannel (a_sid c) m d false false 0x7fffffff))) (k_hist b)) by (apply frames_in; rewrite (hf_frames _ _ _ _ _ _ HB), DB, firstn_all; apply in_map_iff; eexists; split; [| exact S]; reflexivity).
    assert (R : In (VChannel, sid, (d, m)) (received (k_hist b))) by (unfold received; apply in_flat_map; eexists; split; [exact Hb | left; rewrite <- Es; reflexivity]). apply In_nth_error in R. exact R.
Qed.
End Up.
