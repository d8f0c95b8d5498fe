(** Proofs about the calls and channels of [RustSocketModel] against [RustSocketSpec]. *)
From Coq Require Import List NArith ZArith Lia Bool ZifyBool ZifyNat ZifyN.
From Verif Require Import Base ProxyModel RustFramesModel RustSocketModel RustSocketSpec RustSocketProofs.
From Verif Require RustCallModel RustStreamModel.
Import ListNotations.
Open Scope N_scope.

(** ** Ids *)

Definition nth_id (sd : sside) (c : N) : N := (first_id sd + 2 * c) mod 2 ^ 32.
Lemma nth_id_inj : forall sd a b, a < 2 ^ 31 -> b < 2 ^ 31 -> nth_id sd a = nth_id sd b -> a = b.
Proof.
  intros sd a b Ha Hb H. unfold nth_id in H. change (2 ^ 31) with 2147483648 in *. change (2 ^ 32) with 4294967296 in *.
  pose proof (N.div_mod (first_id sd + 2 * a) 4294967296 ltac:(lia)) as D1. pose proof (N.div_mod (first_id sd + 2 * b) 4294967296 ltac:(lia)) as D2.
  rewrite H in D1. assert (F : first_id sd <= 2) by (destruct sd; cbn; lia).
  generalize dependent ((first_id sd + 2 * b) mod 4294967296). intros r _ D1 D2.
  generalize dependent ((first_id sd + 2 * a) / 4294967296). generalize dependent ((first_id sd + 2 * b) / 4294967296). intros q D2 q' D1. lia.
Qed.
Lemma nth_id_next : forall sd c, u32 (nth_id sd c + 2) = nth_id sd (c + 1).
Proof.
  intros sd c. unfold nth_id, u32. change (2 ^ 32) with 4294967296. rewrite N.add_mod_idemp_l by lia. f_equal. lia.
Qed.
Lemma calls_snoc : forall ms m, calls (ms ++ [m]) = calls ms + if is_call m then 1 else 0.
Proof. intros ms m. unfold calls. rewrite filter_app. cbn [filter]. destruct (is_call m); unfold len; rewrite app_length; cbn [length]; lia. Qed.

Lemma requests_app : forall a id b, requests id (a ++ b) = requests id a ++ requests (if calls a =? 0 then id else (id + 2 * calls a) mod 2 ^ 32) b.
Proof.
  induction a as [| m a IH]; intros id b; [reflexivity |].
  assert (X : requests ((id + 2) mod 2 ^ 32) (a ++ b) = requests ((id + 2) mod 2 ^ 32) a ++ requests ((id + 2 * (1 + calls a)) mod 2 ^ 32) b).
  { rewrite IH. f_equal. f_equal. change (2 ^ 32) with 4294967296. destruct (N.eqb_spec (calls a) 0) as [-> | Q]; [f_equal; lia |]. rewrite N.add_mod_idemp_l by lia. f_equal. lia. }
  destruct m as [c [d mm] | | | | | | | | |]; cbn [app requests].
  - assert (C : calls (KCall c (d, mm) :: a) = 1 + calls a) by (unfold calls; cbn [filter is_call]; unfold len; cbn [length]; lia).
    rewrite C. destruct (N.eqb_spec (1 + calls a) 0); [lia |]. cbn [app]. f_equal. exact X.
  - assert (C : calls (KChannel :: a) = 1 + calls a) by (unfold calls; cbn [filter is_call]; unfold len; cbn [length]; lia).
    rewrite C. destruct (N.eqb_spec (1 + calls a) 0); [lia |]. exact X.
  - apply IH. - apply IH. - apply IH. - apply IH. - apply IH. - apply IH. - apply IH. - apply IH.
Qed.

Lemma frame_next : forall s f s', process_once s f = Some s' -> k_next s' = k_next s /\ (forall a, a <> ByFrame -> said a s' = said a s).
Proof.
  intros s f s' H. unfold process_once in H. destruct f as [p | sid | sid code data | sid n | r | r | r | r].
  - injection H as <-. destruct (on_payload_fields (with_hist s (EFrame (RPayloadFrame p))) p) as (F1 & _ & _ & _ & _ & F3). split; [exact F1 |].
    intros a Q. unfold said. destruct F3 as [-> | (-> & _)]; cbn [with_hist k_out]; [reflexivity |]. rewrite filter_app. cbn [filter fst]. destruct a; cbn [author_eqb]; rewrite app_nil_r || congruence; reflexivity.
  - destruct (on_cancel_fields _ _ _ H) as (F1 & _ & _ & _ & _ & F3). split; [exact F1 |]. intros a _. apply said_same. exact F3.
  - destruct (on_error_fields _ _ _ _ _ H) as (F1 & _ & _ & _ & _ & F3). split; [exact F1 |]. intros a _. apply said_same. exact F3.
  - injection H as <-. assert (X : forall msg a, a <> ByFrame -> said a (send (with_hist s (EFrame (RRequestN sid n))) ByFrame msg) = said a s).
    { intros msg a Q. rewrite said_send. destruct a; cbn [author_eqb]; rewrite ?app_nil_r; try reflexivity. congruence. }
    unfold on_request_n. destruct (n =? 0); [split; [reflexivity | apply X] |].
    destruct (m_get sid _) as [i |]; [| split; [reflexivity | apply X]]. destruct (nth_error _ i) as [a |]; [| split; reflexivity].
    destruct (a_phase a); first [split; [reflexivity | apply X] | split; reflexivity].
  - injection H as <-. split; reflexivity.
  - injection H as <-. split; reflexivity.
  - injection H as <-. split; reflexivity.
  - injection H as <-. split; reflexivity.
Qed.

Lemma app_move : forall s m s', k_move s m = Some s' -> k_next s' = (if is_call m then u32 (k_next s + 2) else k_next s) /\ said ByApp s' = said ByApp s ++ requests (k_next s) [m].
Proof.
  intros s m s' H. destruct m as [c p | | i x | i | k | i | j | j x | j | f]; cbn [k_move is_call requests] in *.
  - injection H as <-. unfold do_call. cbv zeta. destruct p as [d mm]. split; [destruct c; reflexivity |]. destruct c; rewrite said_send; reflexivity.
  - injection H as <-. split; [reflexivity | unfold said; cbn; rewrite app_nil_r; reflexivity].
  - rewrite app_nil_r. destruct (nth_error (k_callers s) i) as [a |]; [| discriminate]. destruct (u_live (a_in a)); [| discriminate]. injection H as <-. split; reflexivity.
  - rewrite app_nil_r. destruct (nth_error (k_callers s) i) as [a |]; [| discriminate]. injection H as <-. split; reflexivity.
  - rewrite app_nil_r. destruct (nth_error (k_ports s) k) as [o |] eqn:E; [| discriminate]. injection H as <-. split; reflexivity.
  - rewrite app_nil_r. unfold caller_step in H. destruct (nth_error (k_callers s) i) as [a |]; [| discriminate]. destruct (a_phase a); [| | discriminate].
    + destruct (next_of (a_in a)) as [[x |] |]; [| injection H as <-; unfold caller_end; rewrite said_send, app_nil_r; split; reflexivity | discriminate]. destruct (a_n a =? 0); [discriminate |].
      destruct x as [p | e |]; injection H as <-; rewrite said_send, app_nil_r; split; reflexivity.
    + destruct (nth_error (a_grants a) (a_used a)); [injection H as <-; split; reflexivity |].
      destruct (m_get (a_sid a) (k_channels s)) as [i' |]; [destruct (Nat.eqb i' i); [discriminate |] |]; injection H as <-; unfold caller_end; rewrite said_send, app_nil_r; split; reflexivity.
  - rewrite app_nil_r. destruct (nth_error (k_serves s) j) as [v |] eqn:E; [| discriminate]. destruct (serve_step v) as [[v' l] |] eqn:Es; [| discriminate]. injection H as <-.
    destruct (sends_fields j l (with_serves s (put (k_serves s) j v'))) as (F & _). split; [exact F |]. rewrite said_sends. cbn [author_eqb]. rewrite app_nil_r. reflexivity.
  - rewrite app_nil_r. destruct (nth_error (k_serves s) j) as [v |] eqn:E; [| discriminate]. destruct (may_feed v x) eqn:M; [| discriminate]. injection H as <-. split; reflexivity.
  - rewrite app_nil_r. destruct (nth_error (k_serves s) j) as [v |] eqn:E; [| discriminate]. destruct (v_started v) eqn:M; [| discriminate]. injection H as <-. split; reflexivity.
  - rewrite app_nil_r. destruct (frame_next _ _ _ H) as (F1 & F2). split; [exact F1 | apply F2; discriminate].
Qed.

Lemma next_reached : forall sd ms s, k_moves (new_sock sd) ms = Some s -> k_next s = nth_id sd (calls ms) /\ said ByApp s = requests (first_id sd) ms.
Proof.
  intros sd. apply (k_moves_ind (fun ms s => k_next s = nth_id sd (calls ms) /\ said ByApp s = requests (first_id sd) ms)).
  - destruct sd; split; reflexivity.
  - intros ms s m s' (I1 & I2) H. destruct (app_move _ _ _ H) as (A1 & A2). split.
    + rewrite A1, calls_snoc, I1. destruct (is_call m); [apply nth_id_next | f_equal; lia].
    + rewrite A2, I2, requests_app, I1. f_equal. f_equal. unfold nth_id. destruct (N.eqb_spec (calls ms) 0) as [-> | Q]; [destruct sd; reflexivity | reflexivity].
Qed.

(** ** The tasks of channels *)

Definition is_ok (x : signal) : bool := match x with SOk _ => true | _ => false end.
Lemma channel_frames_app : forall sid a b c, channel_frames sid b (a ++ c) = channel_frames sid b a ++ channel_frames sid (b && negb (existsb is_ok a)) c.
Proof.
  intros sid. induction a as [| x a IH]; intros b c; [cbn [app channel_frames existsb negb]; rewrite andb_true_r; reflexivity |].
  destruct x as [[d m] | e |]; cbn [app channel_frames existsb is_ok orb negb]; rewrite IH; rewrite ?andb_false_r; cbn [andb]; reflexivity.
Qed.
Lemma total_app : forall a b, total (a ++ b) = total a + total b.
Proof. induction a as [| x a IH]; intro b; [reflexivity |]. unfold total in *. cbn [app fold_right]. rewrite IH. lia. Qed.

Definition ended (a : caller) : bool := match a_phase a with Ended => true | _ => false end.
Definition caller_ok (w : list rframe) (a : caller) : Prop :=
  let u := a_in a in
  good_source u (ended a) /\
  w = channel_frames (a_sid a) true (firstn (u_pos u) (u_fed u)) ++ (if ended a then [end_frame (a_sid a)] else []) /\
  a_first a = negb (existsb is_ok (firstn (u_pos u) (u_fed u))) /\
  N.of_nat (u_pos u) + a_n a = 1 + total (firstn (a_used a) (a_grants a)) /\ (a_used a <= length (a_grants a))%nat /\ Forall (fun n => 0 < n) (a_grants a) /\
  match a_phase a with Waiting => a_n a = 0 | _ => 0 < a_n a end.
Definition grants_ok (hist : list event) (i : nat) (a : caller) : Prop :=
  exists before after, hist = before ++ EChannel i (a_sid a) :: after /\ prefix (a_grants a) (granted (a_sid a) after) /\ (a_phase a <> Ended -> a_grants a = granted (a_sid a) after).
Record callers_inv (sd : sside) (n : N) (s : sock) : Prop := {
  ci_ids : forall i a, nth_error (k_callers s) i = Some a -> exists c, c < n /\ a_sid a = nth_id sd c;
  ci_once : forall i j a b, nth_error (k_callers s) i = Some a -> nth_error (k_callers s) j = Some b -> a_sid a = a_sid b -> i = j;
  ci_get : forall sid i, m_get sid (k_channels s) = Some i <-> exists a, nth_error (k_callers s) i = Some a /\ a_sid a = sid /\ a_phase a <> Ended;
  ci_ok : forall i a, nth_error (k_callers s) i = Some a -> caller_ok (said (ByCaller i) s) a;
  ci_grants : forall i a, nth_error (k_callers s) i = Some a -> grants_ok (k_hist s) i a;
  ci_none : forall i, (length (k_callers s) <= i)%nat -> said (ByCaller i) s = [] }.

Lemma granted_app : forall sid a b, granted sid (a ++ b) = granted sid a ++ granted sid b.
Proof. intros. unfold granted. apply flat_map_app. Qed.
Lemma grants_more : forall hist l i a, grants_ok hist i a -> (a_phase a <> Ended -> granted (a_sid a) l = []) -> grants_ok (hist ++ l) i a.
Proof.
  intros hist l i a (b & r & -> & (c & P) & E) H. exists b, (r ++ l). split; [rewrite <- app_assoc; reflexivity |]. rewrite granted_app. split.
  - exists (c ++ granted (a_sid a) l). rewrite P, app_assoc. reflexivity.
  - intro Q. rewrite (H Q), app_nil_r. apply E. exact Q.
Qed.

Lemma callers_keep : forall sd n n' s s' l, callers_inv sd n s -> n <= n' -> k_callers s' = k_callers s -> k_channels s' = k_channels s -> k_hist s' = k_hist s ++ l ->
  (forall i a, nth_error (k_callers s) i = Some a -> a_phase a <> Ended -> granted (a_sid a) l = []) -> (forall i, said (ByCaller i) s' = said (ByCaller i) s) -> callers_inv sd n' s'.
Proof.
  intros sd n n' s s' l [I1 I2 I3 I4 I5 I6] L E1 E2 E3 G W. apply Build_callers_inv.
  - intros i a E. rewrite E1 in E. destruct (I1 _ _ E) as (c & Hc & ->). exists c. split; [lia | reflexivity].
  - rewrite E1. exact I2.
  - intros sid i. rewrite E1, E2. apply I3.
  - intros i a E. rewrite E1 in E. rewrite W. apply I4. exact E.
  - intros i a E. rewrite E1 in E. rewrite E3. apply grants_more; [apply I5; exact E | exact (G i a E)].
  - intros i Q. rewrite E1 in Q. rewrite W. apply I6. exact Q.
Qed.

Lemma callers_change : forall sd n s s' i a a' w l, callers_inv sd n s -> nth_error (k_callers s) i = Some a -> k_callers s' = put (k_callers s) i a' -> a_sid a' = a_sid a ->
  k_channels s' = (if ended a' then m_remove (a_sid a) (k_channels s) else k_channels s) -> (ended a = true -> ended a' = true) ->
  k_hist s' = k_hist s ++ l -> (forall j b, nth_error (k_callers s) j = Some b -> j <> i -> granted (a_sid b) l = []) -> (grants_ok (k_hist s) i a -> grants_ok (k_hist s ++ l) i a') ->
  (forall j, said (ByCaller j) s' = said (ByCaller j) s ++ if Nat.eqb i j then w else []) -> (caller_ok (said (ByCaller i) s) a -> caller_ok (said (ByCaller i) s ++ w) a') -> callers_inv sd n s'.
Proof.
  intros sd n s s' i a a' w l [I1 I2 I3 I4 I5 I6] E E1 Es E2 Ee E3 G Ga W K. pose proof (nth_bound _ _ _ _ E) as B.
  assert (X : forall j b, nth_error (k_callers s') j = Some b -> (j = i /\ b = a') \/ (j <> i /\ nth_error (k_callers s) j = Some b)).
  { intros j b H. rewrite E1, nth_put in H by exact B. destruct (Nat.eqb_spec j i) as [-> | Q]; [left; split; congruence | right; auto]. }
  assert (Y : forall j b, nth_error (k_callers s') j = Some b -> exists b0, nth_error (k_callers s) j = Some b0 /\ a_sid b = a_sid b0).
  { intros j b H. destruct (X _ _ H) as [(-> & ->) | (_ & H')]; [exists a; auto | exists b; auto]. }
  apply Build_callers_inv.
  - intros j b H. destruct (Y _ _ H) as (b0 & H0 & ->). exact (I1 _ _ H0).
  - intros j k b c Hb Hc Q. destruct (Y _ _ Hb) as (b0 & Hb0 & Eb). destruct (Y _ _ Hc) as (c0 & Hc0 & Ec). apply (I2 _ _ _ _ Hb0 Hc0). congruence.
  - intros sid j. rewrite E2.
    assert (Z : m_get sid (if ended a' then m_remove (a_sid a) (k_channels s) else k_channels s) = Some j <-> m_get sid (k_channels s) = Some j /\ (ended a' = true -> sid <> a_sid a)).
    { destruct (ended a'); [rewrite get_remove; destruct (N.eqb_spec sid (a_sid a)) as [-> | Q]; split; [discriminate | intros (_ & Q); exfalso; apply Q; reflexivity | auto | intros (? & _); assumption]
                           | split; [intro; split; [assumption | discriminate] | intros (? & _); assumption]]. }
    rewrite Z, I3. split.
    + intros ((b & Hb & Sb & Pb) & Q). destruct (Nat.eq_dec j i) as [-> | Qj].
      * assert (b = a) by congruence. subst b. exists a'. rewrite E1, nth_put, Nat.eqb_refl by exact B. split; [reflexivity |]. split; [congruence |].
        intro F. apply Q; [unfold ended; rewrite F; reflexivity | congruence].
      * exists b. rewrite E1, nth_put by exact B. destruct (Nat.eqb_spec j i); [congruence |]. auto.
    + intros (b & Hb & Sb & Pb). destruct (X _ _ Hb) as [(-> & ->) | (Qj & Hb0)].
      * split; [exists a; split; [exact E |]; split; [congruence |]; intro F; apply Pb; assert (ended a' = true) by (apply Ee; unfold ended; rewrite F; reflexivity); unfold ended in *; destruct (a_phase a'); congruence |].
        intro F. exfalso. apply Pb. unfold ended in F. destruct (a_phase a'); congruence.
      * split; [eauto |]. intros _ Q. apply Qj. apply (I2 _ _ _ _ Hb0 E). congruence.
  - intros j b H. rewrite W. destruct (X _ _ H) as [(-> & ->) | (Qj & H')]; [rewrite Nat.eqb_refl; apply K; apply I4; exact E |].
    destruct (Nat.eqb_spec i j); [congruence |]. rewrite app_nil_r. apply I4. exact H'.
  - intros j b H. rewrite E3. destruct (X _ _ H) as [(-> & ->) | (Qj & H')]; [apply Ga; apply I5; exact E |]. apply grants_more; [apply I5; exact H' | intros _; exact (G _ _ H' Qj)].
  - intros j L. rewrite E1, length_put in L by exact B. rewrite W. destruct (Nat.eqb_spec i j); [lia |]. rewrite app_nil_r. apply I6. exact L.
Qed.

Lemma caller_read_ok : forall w a x n f, caller_ok w a -> a_phase a = Reading -> next_of (a_in a) = Some (Some x) -> n = a_n a - 1 ->
  f = (match x with SOk p => if a_first a then new_request_channel (a_sid a) (Some (snd p)) (Some (fst p)) FLAG_NEXT REQUEST_MAX else payload_frame (a_sid a) p FLAG_NEXT | _ => app_error (a_sid a) channel_failed end) ->
  caller_ok (w ++ [f]) (mkCaller (a_sid a) (match x with SOk _ => false | _ => a_first a end) n (read_one (a_in a)) (a_grants a) (a_used a) (if n =? 0 then Waiting else Reading)).
Proof.
  intros w [sid first na u gs used ph] x n f (K1 & K2 & K3 & K4 & K5 & K6 & K7) P E -> ->. cbn [a_sid a_first a_n a_in a_grants a_used a_phase ended] in *. subst ph. cbn [ended] in *.
  destruct (good_read _ _ K1 E) as (G & F & Q). unfold caller_ok. cbn [a_sid a_first a_n a_in a_grants a_used a_phase].
  assert (D : (match (if na - 1 =? 0 then Waiting else Reading) with Ended => true | _ => false end) = false) by (destruct (na - 1 =? 0); reflexivity).
  unfold ended. cbn [a_phase]. rewrite D. split; [exact G |]. unfold read_one. cbn [u_fed u_pos]. rewrite F.
  split; [| split; [| split; [| split; [exact K5 | split; [exact K6 |]]]]].
  - rewrite K2, !app_nil_r, channel_frames_app, <- K3. f_equal. destruct x as [[d m] | e |]; [| | congruence]; destruct first; reflexivity.
  - rewrite existsb_app, negb_orb, <- K3. destruct x as [p | e |]; [| | congruence]; cbn [existsb is_ok orb negb]; rewrite ?andb_true_r, ?andb_false_r; reflexivity.
  - lia.
  - destruct (N.eqb_spec (na - 1) 0); lia.
Qed.
Lemma caller_end_ok : forall w a, caller_ok w a -> a_phase a = Reading -> next_of (a_in a) = Some None ->
  caller_ok (w ++ [complete_frame (a_sid a)]) (mkCaller (a_sid a) (a_first a) (a_n a) (a_in a) (a_grants a) (a_used a) Ended).
Proof.
  intros w [sid first na u gs used ph] (K1 & K2 & K3 & K4 & K5 & K6 & K7) P E. cbn [a_sid a_first a_n a_in a_grants a_used a_phase] in *. subst ph.
  unfold caller_ok, ended in *. cbn [a_sid a_first a_n a_in a_grants a_used a_phase] in *. split; [exact (good_end _ K1 E) |]. split; [rewrite K2, app_nil_r; reflexivity |]. auto.
Qed.
Lemma caller_take_ok : forall w a n, caller_ok w a -> a_phase a = Waiting -> nth_error (a_grants a) (a_used a) = Some n ->
  caller_ok w (mkCaller (a_sid a) (a_first a) n (a_in a) (a_grants a) (S (a_used a)) Reading).
Proof.
  intros w [sid first na u gs used ph] n (K1 & K2 & K3 & K4 & K5 & K6 & K7) P E. cbn [a_sid a_first a_n a_in a_grants a_used a_phase] in *. subst ph.
  unfold caller_ok, ended in *. cbn [a_sid a_first a_n a_in a_grants a_used a_phase] in *. split; [exact K1 |]. split; [exact K2 |]. split; [exact K3 |].
  rewrite (firstn_S_nth _ _ _ _ E), total_app. pose proof (nth_bound _ _ _ _ E). cbn [total fold_right]. split; [lia |]. split; [lia |]. split; [exact K6 |].
  rewrite Forall_forall in K6. apply K6. eapply nth_error_In. exact E.
Qed.
Lemma caller_grant_ok : forall w a n, caller_ok w a -> n <> 0 -> caller_ok w (mkCaller (a_sid a) (a_first a) (a_n a) (a_in a) (a_grants a ++ [n]) (a_used a) (a_phase a)).
Proof.
  intros w [sid first na u gs used ph] n (K1 & K2 & K3 & K4 & K5 & K6 & K7) Q. unfold caller_ok, ended in *. cbn [a_sid a_first a_n a_in a_grants a_used a_phase] in *.
  split; [exact K1 |]. split; [exact K2 |]. split; [exact K3 |]. rewrite firstn_app. replace (used - length gs)%nat with 0%nat by lia. cbn [firstn]. rewrite app_nil_r, app_length.
  split; [exact K4 |]. split; [lia |]. split; [| exact K7]. apply Forall_app. split; [exact K6 |]. constructor; [lia | constructor].
Qed.
Lemma caller_src_ok : forall w a u, caller_ok w a -> good_source u (ended a) -> firstn (u_pos u) (u_fed u) = firstn (u_pos (a_in a)) (u_fed (a_in a)) -> u_pos u = u_pos (a_in a) ->
  caller_ok w (mkCaller (a_sid a) (a_first a) (a_n a) u (a_grants a) (a_used a) (a_phase a)).
Proof.
  intros w [sid first na u0 gs used ph] u (K1 & K2 & K3 & K4 & K5 & K6 & K7) G F P. unfold caller_ok, ended in *. cbn [a_sid a_first a_n a_in a_grants a_used a_phase] in *.
  rewrite F, P. split; [exact G |]. auto 8.
Qed.

Lemma no_grant_frame : forall sid f, (forall s n, f <> RRequestN s n) -> granted sid [EFrame f] = [].
Proof. intros sid f H. cbn. destruct f; try reflexivity. exfalso. eapply H. reflexivity. Qed.

Lemma callers_new : forall sd n s s', callers_inv sd n s -> n < 2 ^ 31 -> k_next s = nth_id sd n -> s' = do_channel s -> callers_inv sd (n + 1) s'.
Proof.
  intros sd n s s' [I1 I2 I3 I4 I5 I6] L Hn ->.
  assert (E1 : k_callers (do_channel s) = k_callers s ++ [mkCaller (k_next s) true 1 new_source [] 0 Reading]) by reflexivity.
  assert (E2 : k_channels (do_channel s) = m_insert (k_next s) (length (k_callers s)) (k_channels s)) by reflexivity.
  assert (E3 : k_hist (do_channel s) = (k_hist s ++ [EOpen (length (k_ports s)) ReqRC (k_next s)]) ++ [EChannel (length (k_callers s)) (k_next s)]) by reflexivity.
  assert (W : forall i, said (ByCaller i) (do_channel s) = said (ByCaller i) s) by reflexivity.
  assert (D : forall i a, nth_error (k_callers s) i = Some a -> a_sid a <> k_next s).
  { intros i a E Q. destruct (I1 _ _ E) as (c & Hc & Hs). rewrite Hs, Hn in Q. apply nth_id_inj in Q; lia. }
  generalize dependent (do_channel s). intros s' E1 E2 E3 W.
  assert (X : forall j b, nth_error (k_callers s') j = Some b -> (j = length (k_callers s) /\ b = mkCaller (k_next s) true 1 new_source [] 0 Reading) \/ nth_error (k_callers s) j = Some b).
  { intros j b H. rewrite E1, nth_snoc in H. destruct (Nat.eqb_spec j (length (k_callers s))) as [-> | Q]; [left; split; congruence | right; exact H]. }
  apply Build_callers_inv.
  - intros i a H. destruct (X _ _ H) as [(_ & ->) | H']; [exists n; cbn [a_sid]; split; [lia | exact Hn] |]. destruct (I1 _ _ H') as (c & Hc & E). exists c. split; [lia | exact E].
  - intros i j a b Ha Hb Q. destruct (X _ _ Ha) as [(-> & ->) | Ha']; destruct (X _ _ Hb) as [(-> & ->) | Hb']; cbn [a_sid] in Q.
    + reflexivity. + exfalso. apply (D _ _ Hb'). auto. + exfalso. apply (D _ _ Ha'). auto. + eapply I2; eassumption.
  - intros sid i. rewrite E2, get_insert. destruct (N.eqb_spec sid (k_next s)) as [-> | Q].
    + split.
      * intro H. assert (i = length (k_callers s)) by congruence. subst i. eexists. rewrite E1, nth_snoc, Nat.eqb_refl. split; [reflexivity |]. split; [reflexivity | discriminate].
      * intros (a & Ha & Sa & _). destruct (X _ _ Ha) as [(-> & _) | Ha']; [reflexivity |]. exfalso. exact (D _ _ Ha' Sa).
    + rewrite I3. split.
      * intros (a & Ha & Sa & Pa). exists a. rewrite E1, nth_snoc. pose proof (nth_bound _ _ _ _ Ha). destruct (Nat.eqb_spec i (length (k_callers s))); [lia |]. auto.
      * intros (a & Ha & Sa & Pa). destruct (X _ _ Ha) as [(-> & ->) | Ha']; [cbn [a_sid] in Sa; congruence |]. eauto.
  - intros i a H. rewrite W. destruct (X _ _ H) as [(-> & ->) | H']; [| apply I4; exact H']. rewrite I6 by apply le_n. unfold caller_ok, ended. cbn.
    split; [apply good_new |]. split; [reflexivity |]. split; [reflexivity |]. split; [reflexivity |]. split; [lia |]. split; [constructor | lia].
  - intros i a H. rewrite E3. destruct (X _ _ H) as [(-> & ->) | H'].
    + eexists. exists []. cbn [a_sid a_grants a_phase]. split; [reflexivity |]. split; [exists []; reflexivity | reflexivity].
    + apply grants_more; [apply grants_more; [apply I5; exact H' |] |]; reflexivity.
  - intros i Q. rewrite E1, app_length in Q. cbn [length] in Q. rewrite W. apply I6. lia.
Qed.

Lemma callers_move : forall sd n s m s', callers_inv sd n s -> k_next s = nth_id sd n -> (is_call m = true -> n < 2 ^ 31) -> k_move s m = Some s' -> callers_inv sd (n + if is_call m then 1 else 0) s'.
Proof.
  intros sd n s m s' V Hn L H. destruct m as [c p | | i x | i | k | i | j | j x | j | f]; cbn [k_move is_call] in *.
  - injection H as <-. unfold do_call. cbv zeta. destruct c.
    + eapply callers_keep with (l := []); [exact V | lia | reflexivity | reflexivity | cbn; rewrite app_nil_r; reflexivity | reflexivity | same_said].
    + eapply callers_keep with (l := [EOpen (length (k_ports s)) ReqRR (k_next s)]); [exact V | lia | reflexivity | reflexivity | reflexivity | reflexivity | same_said].
    + eapply callers_keep with (l := [EOpen (length (k_ports s)) ReqRS (k_next s)]); [exact V | lia | reflexivity | reflexivity | reflexivity | reflexivity | same_said].
  - injection H as <-. eapply callers_new; [exact V | exact (L eq_refl) | exact Hn | reflexivity].
  - rewrite N.add_0_r. destruct (nth_error (k_callers s) i) as [a |] eqn:E; [| discriminate]. destruct (u_live (a_in a)) eqn:B; [| discriminate]. injection H as <-.
    destruct (ended a) eqn:Ed.
    + (* fed after it ended *)
      eapply (callers_change sd n s _ i a _ [] [] V E); try reflexivity; unfold ended in Ed |- *; cbn [a_phase a_sid].
      * destruct (a_phase a) eqn:P; try discriminate. cbn. assert (Hg : m_get (a_sid a) (k_channels s) = None).
        { destruct (m_get (a_sid a) (k_channels s)) as [i' |] eqn:G; [| reflexivity]. apply (ci_get _ _ _ V) in G as (b & Hb & Sb & Pb). exfalso. apply Pb. assert (i' = i) by exact (ci_once _ _ _ V _ _ _ _ Hb E Sb). congruence. }
        clear -Hg. induction (k_channels s) as [| [y ky] l IH]; [reflexivity |]. unfold m_get in Hg. cbn [List.find fst] in Hg. unfold m_remove. cbn [filter fst].
        destruct (y =? a_sid a); [discriminate |]. cbn [negb]. f_equal. apply IH. exact Hg.
      * intros _. destruct (a_phase a); congruence.
      * cbn. rewrite app_nil_r. reflexivity.
      * intro K. destruct K as (b & r & P1 & P2 & P3). exists b, r. cbn [a_sid a_grants a_phase]. rewrite app_nil_r. auto.
      * intro j. rewrite (said_same (ByCaller j) s) by reflexivity. destruct (Nat.eqb i j); rewrite app_nil_r; reflexivity.
      * intro K. rewrite app_nil_r. apply caller_src_ok; [exact K | apply good_feed; [exact (proj1 K) | exact B] | | reflexivity].
        destruct K as ((G & _) & _). unfold feed. cbn [u_fed u_pos]. rewrite firstn_app. replace (u_pos (a_in a) - length (u_fed (a_in a)))%nat with 0%nat by lia. cbn [firstn]. apply app_nil_r.
    + eapply (callers_change sd n s _ i a _ [] [] V E); try reflexivity; unfold ended in Ed |- *; cbn [a_phase a_sid].
      * rewrite Ed. reflexivity.
      * congruence.
      * cbn. rewrite app_nil_r. reflexivity.
      * intro K. destruct K as (b & r & P1 & P2 & P3). exists b, r. cbn [a_sid a_grants a_phase]. rewrite app_nil_r. auto.
      * intro j. rewrite (said_same (ByCaller j) s) by reflexivity. destruct (Nat.eqb i j); rewrite app_nil_r; reflexivity.
      * intro K. rewrite app_nil_r. apply caller_src_ok; [exact K | apply good_feed; [exact (proj1 K) | exact B] | | reflexivity].
        destruct K as ((G & _) & _). unfold feed. cbn [u_fed u_pos]. rewrite firstn_app. replace (u_pos (a_in a) - length (u_fed (a_in a)))%nat with 0%nat by lia. cbn [firstn]. apply app_nil_r.
  - rewrite N.add_0_r. destruct (nth_error (k_callers s) i) as [a |] eqn:E; [| discriminate]. injection H as <-.
    destruct (ended a) eqn:Ed.
    + eapply (callers_change sd n s _ i a _ [] [] V E); try reflexivity; unfold ended in Ed |- *; cbn [a_phase a_sid].
      * destruct (a_phase a) eqn:P; try discriminate. cbn. assert (Hg : m_get (a_sid a) (k_channels s) = None).
        { destruct (m_get (a_sid a) (k_channels s)) as [i' |] eqn:G; [| reflexivity]. apply (ci_get _ _ _ V) in G as (b & Hb & Sb & Pb). exfalso. apply Pb. assert (i' = i) by exact (ci_once _ _ _ V _ _ _ _ Hb E Sb). congruence. }
        clear -Hg. induction (k_channels s) as [| [y ky] l IH]; [reflexivity |]. unfold m_get in Hg. cbn [List.find fst] in Hg. unfold m_remove. cbn [filter fst].
        destruct (y =? a_sid a); [discriminate |]. cbn [negb]. f_equal. apply IH. exact Hg.
      * intros _. destruct (a_phase a); congruence.
      * cbn. rewrite app_nil_r. reflexivity.
      * intro K. destruct K as (b & r & P1 & P2 & P3). exists b, r. cbn [a_sid a_grants a_phase]. rewrite app_nil_r. auto.
      * intro j. rewrite (said_same (ByCaller j) s) by reflexivity. destruct (Nat.eqb i j); rewrite app_nil_r; reflexivity.
      * intro K. rewrite app_nil_r. apply caller_src_ok; [exact K | apply good_cut; exact (proj1 K) | reflexivity | reflexivity].
    + eapply (callers_change sd n s _ i a _ [] [] V E); try reflexivity; unfold ended in Ed |- *; cbn [a_phase a_sid].
      * rewrite Ed. reflexivity.
      * congruence.
      * cbn. rewrite app_nil_r. reflexivity.
      * intro K. destruct K as (b & r & P1 & P2 & P3). exists b, r. cbn [a_sid a_grants a_phase]. rewrite app_nil_r. auto.
      * intro j. rewrite (said_same (ByCaller j) s) by reflexivity. destruct (Nat.eqb i j); rewrite app_nil_r; reflexivity.
      * intro K. rewrite app_nil_r. apply caller_src_ok; [exact K | apply good_cut; exact (proj1 K) | reflexivity | reflexivity].
  - rewrite N.add_0_r. destruct (nth_error (k_ports s) k) as [o |] eqn:E; [| discriminate]. injection H as <-.
    eapply callers_keep with (l := [EDrop k]); [exact V | lia | reflexivity | reflexivity | reflexivity | reflexivity | same_said].
  - rewrite N.add_0_r. unfold caller_step in H. destruct (nth_error (k_callers s) i) as [a |] eqn:E; [| discriminate].
    assert (SS : forall j (f : rframe) (l : list (author * rframe)), Nat.eqb i j = false \/ Nat.eqb i j = true -> map snd (filter (fun x => author_eqb (fst x) (ByCaller j)) (l ++ [(ByCaller i, f)])) = map snd (filter (fun x => author_eqb (fst x) (ByCaller j)) l) ++ if Nat.eqb i j then [f] else []).
    { intros j f l _. rewrite filter_app, map_app. cbn [filter fst author_eqb]. destruct (Nat.eqb i j); reflexivity. }
    destruct (a_phase a) eqn:P; [| | discriminate].
    + destruct (next_of (a_in a)) as [[x |] |] eqn:En; [| | discriminate].
      * destruct (N.eqb_spec (a_n a) 0) as [Q | Q]; [discriminate |].
        assert (HH : exists f, f = (match x with SOk p => if a_first a then new_request_channel (a_sid a) (Some (snd p)) (Some (fst p)) FLAG_NEXT REQUEST_MAX else payload_frame (a_sid a) p FLAG_NEXT | _ => app_error (a_sid a) channel_failed end) /\
          s' = send (with_callers s (k_channels s) (put (k_callers s) i (mkCaller (a_sid a) (match x with SOk _ => false | _ => a_first a end) (a_n a - 1) (read_one (a_in a)) (a_grants a) (a_used a) (if a_n a - 1 =? 0 then Waiting else Reading)))) (ByCaller i) f).
        { eexists. split; [reflexivity |]. destruct x; injection H as <-; reflexivity. }
        destruct HH as (f & Hf & ->).
        eapply (callers_change sd n s _ i a _ [f] [] V E); try reflexivity; unfold ended; cbn [a_phase a_sid].
        -- destruct (a_n a - 1 =? 0); reflexivity.
        -- rewrite P. discriminate.
        -- cbn. rewrite app_nil_r. reflexivity.
        -- intros (b & r & P1 & P2 & P3). exists b, r. cbn [a_sid a_grants a_phase]. rewrite app_nil_r. rewrite P in P3. split; [exact P1 |]. split; [exact P2 |]. intros _. apply P3. discriminate.
        -- intro j. unfold said. cbn [send with_callers k_out]. apply SS. destruct (Nat.eqb i j); auto.
        -- intro K. eapply caller_read_ok; eauto.
      * injection H as <-. eapply (callers_change sd n s _ i a _ [complete_frame (a_sid a)] [] V E); try reflexivity; unfold ended; cbn [a_phase a_sid].
        -- cbn. rewrite app_nil_r. reflexivity.
        -- intros (b & r & P1 & P2 & P3). exists b, r. cbn [a_sid a_grants a_phase]. rewrite app_nil_r. split; [exact P1 |]. split; [exact P2 |]. congruence.
        -- intro j. unfold said. cbn [caller_end send with_callers k_out]. apply SS. destruct (Nat.eqb i j); auto.
        -- intro K. eapply caller_end_ok; eauto.
    + destruct (nth_error (a_grants a) (a_used a)) as [g |] eqn:G.
      * injection H as <-. eapply (callers_change sd n s _ i a _ [] [] V E); try reflexivity; unfold ended; cbn [a_phase a_sid].
        -- rewrite P. discriminate.
        -- cbn. rewrite app_nil_r. reflexivity.
        -- intros (b & r & P1 & P2 & P3). exists b, r. cbn [a_sid a_grants a_phase]. rewrite app_nil_r. rewrite P in P3. split; [exact P1 |]. split; [exact P2 |]. intros _. apply P3. discriminate.
        -- intro j. rewrite (said_same (ByCaller j) s) by reflexivity. destruct (Nat.eqb i j); rewrite app_nil_r; reflexivity.
        -- intro K. rewrite app_nil_r. apply caller_take_ok; assumption.
      * exfalso. assert (Hg : m_get (a_sid a) (k_channels s) = Some i) by (apply (ci_get _ _ _ V); exists a; rewrite P; split; [exact E | split; [reflexivity | discriminate]]).
        rewrite Hg, Nat.eqb_refl in H. discriminate.
  - rewrite N.add_0_r. destruct (nth_error (k_serves s) j) as [v |] eqn:E; [| discriminate]. destruct (serve_step v) as [[v' l] |] eqn:Es; [| discriminate]. injection H as <-.
    destruct (sends_fields j l (with_serves s (put (k_serves s) j v'))) as (_ & _ & F1 & _ & F2 & _ & F3 & _).
    eapply callers_keep with (l := []); [exact V | lia | exact F2 | exact F1 | rewrite app_nil_r; exact F3 | reflexivity |]. intro i. rewrite said_sends. cbn [author_eqb]. rewrite app_nil_r. reflexivity.
  - rewrite N.add_0_r. destruct (nth_error (k_serves s) j) as [v |] eqn:E; [| discriminate]. destruct (may_feed v x) eqn:M; [| discriminate]. injection H as <-.
    eapply callers_keep with (l := []); [exact V | lia | reflexivity | reflexivity | rewrite app_nil_r; reflexivity | reflexivity | same_said].
  - rewrite N.add_0_r. destruct (nth_error (k_serves s) j) as [v |] eqn:E; [| discriminate]. destruct (v_started v) eqn:M; [| discriminate]. injection H as <-.
    eapply callers_keep with (l := []); [exact V | lia | reflexivity | reflexivity | rewrite app_nil_r; reflexivity | reflexivity | same_said].
  - rewrite N.add_0_r. assert (W : forall i, said (ByCaller i) s' = said (ByCaller i) s) by (intro i; apply (proj2 (frame_next _ _ _ H)); discriminate).
    unfold process_once in H. destruct f as [p | sid | sid code data | sid g | r | r | r | r].
    + injection H as <-. destruct (on_payload_fields (with_hist s (EFrame (RPayloadFrame p))) p) as (_ & F1 & F2 & _ & F3 & _).
      eapply callers_keep with (l := [EFrame (RPayloadFrame p)]); [exact V | lia | exact F2 | exact F1 | exact F3 | reflexivity | exact W].
    + destruct (on_cancel_fields _ _ _ H) as (_ & F1 & F2 & _ & F3 & _). eapply callers_keep with (l := [EFrame (RCancel sid)]); [exact V | lia | exact F2 | exact F1 | exact F3 | reflexivity | exact W].
    + destruct (on_error_fields _ _ _ _ _ H) as (_ & F1 & F2 & _ & F3 & _). eapply callers_keep with (l := [EFrame (RErrorFrame sid code data)]); [exact V | lia | exact F2 | exact F1 | exact F3 | reflexivity | exact W].
    + injection H as <-. unfold on_request_n in W |- *. destruct (N.eqb_spec g 0) as [Hg | Hg].
      { eapply callers_keep with (l := [EFrame (RRequestN sid g)]); [exact V | lia | reflexivity | reflexivity | reflexivity | | exact W].
        intros i a _ _. unfold granted. cbn [flat_map grant_in app]. rewrite Hg. cbn [N.eqb negb]. rewrite andb_false_r. reflexivity. }
      change (k_channels (with_hist s (EFrame (RRequestN sid g)))) with (k_channels s) in *. change (k_callers (with_hist s (EFrame (RRequestN sid g)))) with (k_callers s) in *.
      assert (GR : forall x, granted x [EFrame (RRequestN sid g)] = if sid =? x then [g] else []).
      { intro x. unfold granted. cbn [flat_map grant_in]. rewrite app_nil_r. destruct (N.eqb_spec g 0); [congruence |]. destruct (sid =? x); reflexivity. }
      destruct (m_get sid (k_channels s)) as [i |] eqn:G.
      * pose proof G as G'. apply (ci_get _ _ _ V) in G' as (a & Ea & Sa & Pa). rewrite Ea in *.
        assert (X : callers_inv sd n (with_callers (with_hist s (EFrame (RRequestN sid g))) (k_channels s) (put (k_callers s) i (mkCaller (a_sid a) (a_first a) (a_n a) (a_in a) (a_grants a ++ [g]) (a_used a) (a_phase a))))).
        { eapply (callers_change sd n s _ i a _ [] [EFrame (RRequestN sid g)] V Ea); try reflexivity; unfold ended; cbn [a_phase a_sid].
          - destruct (a_phase a); [reflexivity | reflexivity | congruence].
          - destruct (a_phase a); congruence.
          - intros j b Hb Q. rewrite GR. destruct (N.eqb_spec sid (a_sid b)); [| reflexivity]. exfalso. apply Q. apply (ci_once _ _ _ V _ _ _ _ Hb Ea). congruence.
          - intros (b & r & P1 & P2 & P3). exists b, (r ++ [EFrame (RRequestN sid g)]). cbn [a_sid a_grants a_phase]. split; [rewrite P1, <- app_assoc; reflexivity |].
            rewrite granted_app, GR, Sa, N.eqb_refl, <- Sa, (P3 Pa). split; [exists []; rewrite app_nil_r; reflexivity | reflexivity].
          - intro j. rewrite (said_same (ByCaller j) s) by reflexivity. destruct (Nat.eqb i j); rewrite app_nil_r; reflexivity.
          - intro K. rewrite app_nil_r. apply caller_grant_ok; assumption. }
        destruct (a_phase a) eqn:P; [exact X | exact X | congruence].
      * eapply callers_keep with (l := [EFrame (RRequestN sid g)]); [exact V | lia | reflexivity | reflexivity | reflexivity | | exact W].
        intros i a Ea Pa. rewrite GR. destruct (N.eqb_spec sid (a_sid a)) as [-> | Q]; [| reflexivity]. exfalso.
        assert (m_get (a_sid a) (k_channels s) = Some i) by (apply (ci_get _ _ _ V); eauto). congruence.
    + injection H as <-. eapply callers_keep with (l := [EFrame (RRequestResponse r)]); [exact V | lia | reflexivity | reflexivity | reflexivity | reflexivity | exact W].
    + injection H as <-. eapply callers_keep with (l := [EFrame (RRequestFnF r)]); [exact V | lia | reflexivity | reflexivity | reflexivity | reflexivity | exact W].
    + injection H as <-. eapply callers_keep with (l := [EFrame (RRequestStream r)]); [exact V | lia | reflexivity | reflexivity | reflexivity | reflexivity | exact W].
    + injection H as <-. eapply callers_keep with (l := [EFrame (RRequestChannel r); EOpen (length (k_ports s)) ReqRC (rq_sid r)]); [exact V | lia | reflexivity | reflexivity | cbn; rewrite <- app_assoc; reflexivity | reflexivity | exact W].
Qed.
Lemma callers_reached : forall sd ms s, k_moves (new_sock sd) ms = Some s -> calls ms <= 2 ^ 31 -> callers_inv sd (calls ms) s.
Proof.
  intros sd ms s H.
  enough (X : k_next s = nth_id sd (calls ms) /\ (calls ms <= 2 ^ 31 -> callers_inv sd (calls ms) s)) by apply X.
  revert ms s H. apply (k_moves_ind (fun ms s => k_next s = nth_id sd (calls ms) /\ (calls ms <= 2 ^ 31 -> callers_inv sd (calls ms) s))).
  - split; [destruct sd; reflexivity |]. intros _. apply Build_callers_inv; cbn [new_sock k_callers k_channels k_hist].
    + intros i a E. destruct i; discriminate.
    + intros i j a b E. destruct i; discriminate.
    + intros sid i. split; [discriminate | intros (a & E & _); destruct i; discriminate].
    + intros i a E. destruct i; discriminate.
    + intros i a E. destruct i; discriminate.
    + reflexivity.
  - intros ms s m s' (I1 & I2) H. destruct (app_move _ _ _ H) as (A1 & _). split.
    + rewrite A1, calls_snoc, I1. destruct (is_call m); [apply nth_id_next | f_equal; lia].
    + intro L. rewrite calls_snoc in *. apply (callers_move sd _ s m s'); [apply I2; lia | exact I1 | intro C; rewrite C in L; lia | exact H].
Qed.

(** ** The history *)

Lemma frame_hist : forall s f s', process_once s f = Some s' -> length (k_callers s') = length (k_callers s) /\
  k_hist s' = k_hist s ++ EFrame f :: match f with RRequestChannel q => [EOpen (length (k_ports s)) ReqRC (rq_sid q)] | _ => [] end /\
  length (k_ports s') = (length (k_ports s) + match f with RRequestChannel _ => 1 | _ => 0 end)%nat.
Proof.
  intros s f s' H.
  assert (LP : forall s0 k o l, nth_error (k_ports s0) k = Some o -> length (k_ports (log_to s0 k o l)) = length (k_ports s0)) by (intros s0 k o l E; apply length_put; eapply nth_bound; exact E).
  assert (LH : forall s0 sid k o l, handler_of s0 sid = Some (k, o) -> length (k_ports (log_to (unregister s0 sid) k o l)) = length (k_ports s0) /\ length (k_ports (log_to s0 k o l)) = length (k_ports s0)).
  { intros s0 sid k o l E. destruct (handler_of_get _ _ _ _ E) as (_ & E'). split; [rewrite (LP (unregister s0 sid)); [reflexivity | exact E'] | apply LP; exact E']. }
  unfold process_once in H. destruct f as [p | sid | sid code data | sid n | r | r | r | r].
  - injection H as <-. destruct (on_payload_fields (with_hist s (EFrame (RPayloadFrame p))) p) as (_ & _ & F2 & _ & F3 & _). rewrite F2, F3. split; [reflexivity |]. split; [reflexivity |].
    rewrite Nat.add_0_r. change (k_ports s) with (k_ports (with_hist s (EFrame (RPayloadFrame p)))). generalize (with_hist s (EFrame (RPayloadFrame p))). clear - LH. intro s. unfold on_payload.
    destruct (handler_of s (rp_sid p)) as [[k o] |] eqn:E; [| reflexivity]. destruct (LH _ _ _ _ [NItem (rp_data p, rp_metadata p)] E) as (L1 & L2).
    destruct (o_kind o); destruct (rp_next p); destruct (o_open o); destruct (rp_complete p); cbn [andb]; first [exact L1 | exact L2 | reflexivity].
  - destruct (on_cancel_fields _ _ _ H) as (_ & _ & F2 & _ & F3 & _). rewrite F2, F3. split; [reflexivity |]. split; [reflexivity |]. rewrite Nat.add_0_r. unfold on_cancel in H.
    destruct (handler_of _ sid) as [[k o] |] eqn:E; [| injection H as <-; reflexivity]. destruct (o_kind o); [| injection H as <-; reflexivity | injection H as <-; reflexivity].
    destruct (o_open o); [| discriminate]. injection H as <-. exact (proj1 (LH _ _ _ _ _ E)).
  - destruct (on_error_fields _ _ _ _ _ H) as (_ & _ & F2 & _ & F3 & _). rewrite F2, F3. split; [reflexivity |]. split; [reflexivity |]. rewrite Nat.add_0_r. unfold on_error in H.
    destruct (handler_of _ sid) as [[k o] |] eqn:E; [| injection H as <-; reflexivity]. destruct (o_open o); [| discriminate]. injection H as <-. exact (proj1 (LH _ _ _ _ _ E)).
  - injection H as <-. rewrite Nat.add_0_r. unfold on_request_n. destruct (n =? 0); [auto |]. destruct (m_get sid _) as [i |]; [| auto]. destruct (nth_error _ i) as [a |] eqn:E; [| auto].
    pose proof (nth_bound _ _ _ _ E) as B. destruct (a_phase a); [split; [apply length_put; exact B | auto] | split; [apply length_put; exact B | auto] | auto].
  - injection H as <-. rewrite Nat.add_0_r. auto.
  - injection H as <-. rewrite Nat.add_0_r. auto.
  - injection H as <-. rewrite Nat.add_0_r. auto.
  - injection H as <-. split; [reflexivity |]. split; [cbn; rewrite <- app_assoc; reflexivity | cbn; rewrite app_length; reflexivity].
Qed.

Lemma hist_move : forall s m s', k_move s m = Some s' -> forall r, events (k_next s) (length (k_ports s)) (length (k_callers s)) (m :: r) = skipn (length (k_hist s)) (k_hist s') ++ events (k_next s') (length (k_ports s')) (length (k_callers s')) r
  /\ exists l, k_hist s' = k_hist s ++ l.
Proof.
  assert (SK : forall A (a b : list A), skipn (length a) (a ++ b) = b) by (intros A a b; rewrite skipn_app, Nat.sub_diag, skipn_all; reflexivity).
  intros s m s' H r. destruct m as [c p | | i x | i | k | i | j | j x | j | f]; cbn [k_move events] in *.
  - injection H as <-. destruct c.
    + cbn. rewrite skipn_all. split; [reflexivity | exists []; rewrite app_nil_r; reflexivity].
    + unfold do_call. cbv zeta. cbn [send register_handler with_hist with_ports with_next k_hist k_next k_ports k_callers]. rewrite SK, app_length, Nat.add_1_r. split; [reflexivity | eexists; reflexivity].
    + unfold do_call. cbv zeta. cbn [send register_handler with_hist with_ports with_next k_hist k_next k_ports k_callers]. rewrite SK, app_length, Nat.add_1_r. split; [reflexivity | eexists; reflexivity].
  - injection H as <-. unfold do_channel. cbv zeta. cbn [register_handler with_hist with_ports with_next with_callers k_hist k_next k_ports k_callers].
    rewrite <- app_assoc, SK, !app_length, !Nat.add_1_r. split; [reflexivity | eexists; reflexivity].
  - destruct (nth_error (k_callers s) i) as [a |] eqn:E; [| discriminate]. destruct (u_live (a_in a)); [| discriminate]. injection H as <-. cbn [with_callers k_hist k_next k_ports k_callers].
    rewrite length_put by (eapply nth_bound; exact E). rewrite skipn_all. split; [reflexivity | exists []; rewrite app_nil_r; reflexivity].
  - destruct (nth_error (k_callers s) i) as [a |] eqn:E; [| discriminate]. injection H as <-. cbn [with_callers k_hist k_next k_ports k_callers].
    rewrite length_put by (eapply nth_bound; exact E). rewrite skipn_all. split; [reflexivity | exists []; rewrite app_nil_r; reflexivity].
  - destruct (nth_error (k_ports s) k) as [o |] eqn:E; [| discriminate]. injection H as <-. cbn [with_ports with_hist k_hist k_next k_ports k_callers].
    rewrite length_put by (eapply nth_bound; exact E). rewrite SK. split; [reflexivity | eexists; reflexivity].
  - unfold caller_step in H. destruct (nth_error (k_callers s) i) as [a |] eqn:E; [| discriminate]. pose proof (nth_bound _ _ _ _ E) as B.
    assert (X : k_next s' = k_next s /\ k_hist s' = k_hist s /\ k_ports s' = k_ports s /\ length (k_callers s') = length (k_callers s)).
    { assert (Y : forall a, k_next (caller_end s i a) = k_next s /\ k_hist (caller_end s i a) = k_hist s /\ k_ports (caller_end s i a) = k_ports s /\ length (k_callers (caller_end s i a)) = length (k_callers s)).
      { intro b. split; [reflexivity |]. split; [reflexivity |]. split; [reflexivity |]. apply length_put. exact B. }
      destruct (a_phase a); [| | discriminate].
      - destruct (next_of (a_in a)) as [[x |] |]; [| injection H as <-; apply Y | discriminate]. destruct (a_n a =? 0); [discriminate |].
        destruct x; injection H as <-; (split; [reflexivity |]; split; [reflexivity |]; split; [reflexivity |]; apply length_put; exact B).
      - destruct (nth_error (a_grants a) (a_used a)); [injection H as <-; split; [reflexivity |]; split; [reflexivity |]; split; [reflexivity |]; apply length_put; exact B |].
        destruct (m_get (a_sid a) (k_channels s)) as [i' |]; [destruct (Nat.eqb i' i); [discriminate |] |]; injection H as <-; apply Y. }
    destruct X as (-> & -> & -> & ->). rewrite skipn_all. split; [reflexivity | exists []; rewrite app_nil_r; reflexivity].
  - destruct (nth_error (k_serves s) j) as [v |] eqn:E; [| discriminate]. destruct (serve_step v) as [[v' l] |] eqn:Es; [| discriminate]. injection H as <-.
    destruct (sends_fields j l (with_serves s (put (k_serves s) j v'))) as (F0 & _ & _ & F1 & F2 & _ & F3 & _). cbv zeta in *. rewrite F0, F1, F2, F3. cbn [with_serves k_hist k_next k_ports k_callers].
    rewrite skipn_all. split; [reflexivity | exists []; rewrite app_nil_r; reflexivity].
  - destruct (nth_error (k_serves s) j) as [v |] eqn:E; [| discriminate]. destruct (may_feed v x); [| discriminate]. injection H as <-. cbn [with_serves k_hist k_next k_ports k_callers].
    rewrite skipn_all. split; [reflexivity | exists []; rewrite app_nil_r; reflexivity].
  - destruct (nth_error (k_serves s) j) as [v |] eqn:E; [| discriminate]. destruct (v_started v); [| discriminate]. injection H as <-. cbn [with_serves k_hist k_next k_ports k_callers].
    rewrite skipn_all. split; [reflexivity | exists []; rewrite app_nil_r; reflexivity].
  - destruct (frame_next _ _ _ H) as (F0 & _). destruct (frame_hist _ _ _ H) as (F1 & F2 & F3). rewrite F0, F1, F2, F3, SK. split; [| eexists; reflexivity].
    destruct f; rewrite ?Nat.add_0_r, ?Nat.add_1_r; reflexivity.
Qed.
Lemma hist_moves : forall ms s s', k_moves s ms = Some s' -> k_hist s' = k_hist s ++ events (k_next s) (length (k_ports s)) (length (k_callers s)) ms.
Proof.
  induction ms as [| m ms IH]; intros s s' H; cbn [k_moves] in H; [injection H as <-; cbn [events]; rewrite app_nil_r; reflexivity |].
  destruct (k_move s m) as [s1 |] eqn:E; [| discriminate]. destruct (hist_move _ _ _ E ms) as (-> & (l & L)). rewrite (IH _ _ H), L.
  rewrite skipn_app, Nat.sub_diag, skipn_all, app_assoc. reflexivity.
Qed.
Lemma hist_reached : forall sd ms s, k_moves (new_sock sd) ms = Some s -> k_hist s = events (first_id sd) 0 0 ms.
Proof. intros sd ms s H. rewrite (hist_moves _ _ _ H). destruct sd; reflexivity. Qed.

(** ** What was put in *)

Lemma fed_snoc : forall i ms m, fed i (ms ++ [m]) = fed i ms ++ match m with KFeed i' x => if Nat.eqb i' i then [x] else [] | _ => [] end.
Proof. intros. unfold fed. rewrite flat_map_app. cbn [flat_map]. rewrite app_nil_r. reflexivity. Qed.
Lemma cut_snoc : forall i ms m, cut i (ms ++ [m]) = cut i ms || match m with KCut i' => Nat.eqb i' i | _ => false end.
Proof. intros. unfold cut. rewrite existsb_app. cbn [existsb]. rewrite orb_false_r. reflexivity. Qed.
Lemma given_snoc : forall i ms m, given i (ms ++ [m]) = given i ms ++ match m with KGive i' x => if Nat.eqb i' i then [x] else [] | _ => [] end.
Proof. intros. unfold given. rewrite flat_map_app. cbn [flat_map]. rewrite app_nil_r. reflexivity. Qed.
Lemma quit_snoc : forall i ms m, quit i (ms ++ [m]) = quit i ms || match m with KQuit i' => Nat.eqb i' i | _ => false end.
Proof. intros. unfold quit. rewrite existsb_app. cbn [existsb]. rewrite orb_false_r. reflexivity. Qed.

(** Inputs of channels. *)
Definition inputs (l : list caller) (ms : list kmove) : Prop :=
  (forall i a, nth_error l i = Some a -> u_fed (a_in a) = fed i ms /\ u_live (a_in a) = negb (cut i ms)) /\
  (forall i, (length l <= i)%nat -> fed i ms = [] /\ cut i ms = false).
Definition same_inputs (l l' : list caller) : Prop :=
  length l' = length l /\ forall i a', nth_error l' i = Some a' -> exists a, nth_error l i = Some a /\ u_fed (a_in a') = u_fed (a_in a) /\ u_live (a_in a') = u_live (a_in a).
Definition no_input (m : kmove) : Prop := match m with KFeed _ _ | KCut _ => False | _ => True end.
Lemma inputs_same : forall l l' ms m, inputs l ms -> same_inputs l l' -> no_input m -> inputs l' (ms ++ [m]).
Proof.
  intros l l' ms m (I1 & I2) (S1 & S2) Q. assert (F : forall i, fed i (ms ++ [m]) = fed i ms) by (intro i; rewrite fed_snoc; destruct m; try (apply app_nil_r); destruct Q).
  assert (C : forall i, cut i (ms ++ [m]) = cut i ms) by (intro i; rewrite cut_snoc; destruct m; try (apply orb_false_r); destruct Q). split.
  - intros i a' E. destruct (S2 _ _ E) as (a & E' & -> & ->). rewrite F, C. apply I1. exact E'.
  - intros i B. rewrite F, C. apply I2. lia.
Qed.
Lemma same_refl : forall l, same_inputs l l.
Proof. intro l. split; [reflexivity | eauto]. Qed.
Lemma same_put : forall l i a a', nth_error l i = Some a -> u_fed (a_in a') = u_fed (a_in a) -> u_live (a_in a') = u_live (a_in a) -> same_inputs l (put l i a').
Proof.
  intros l i a a' E F G. pose proof (nth_bound _ _ _ _ E) as B. split; [apply length_put; exact B |]. intros j b H. rewrite nth_put in H by exact B.
  destruct (Nat.eqb_spec j i) as [-> | Q]; [| eauto]. injection H as <-. eauto.
Qed.
Lemma inputs_move : forall s m s' ms, inputs (k_callers s) ms -> k_move s m = Some s' -> inputs (k_callers s') (ms ++ [m]).
Proof.
  intros s m s' ms V H. destruct m as [c p | | i x | i | k | i | j | j x | j | f]; cbn [k_move] in H.
  - injection H as <-. apply (inputs_same _ _ _ _ V); [| exact Logic.I]. destruct c; apply same_refl.
  - injection H as <-. destruct V as (I1 & I2). cbn. split.
    + intros i a E. rewrite nth_snoc in E. rewrite fed_snoc, cut_snoc, app_nil_r, orb_false_r. destruct (Nat.eqb_spec i (length (k_callers s))) as [-> | Q]; [| apply I1; exact E].
      destruct (I2 _ (le_n _)) as (F & C). rewrite F, C. assert (a = mkCaller (k_next s) true 1 new_source [] 0 Reading) by congruence. subst a. split; reflexivity.
    + intros i B. rewrite app_length in B. cbn [length] in B. rewrite fed_snoc, cut_snoc, app_nil_r, orb_false_r. apply I2. lia.
  - destruct (nth_error (k_callers s) i) as [a |] eqn:E; [| discriminate]. destruct (u_live (a_in a)) eqn:Lv; [| discriminate]. injection H as <-. pose proof (nth_bound _ _ _ _ E) as B. destruct V as (I1 & I2).
    cbn [with_callers k_callers]. split.
    + intros j b H. rewrite nth_put in H by exact B. rewrite fed_snoc, cut_snoc, orb_false_r. destruct (Nat.eqb_spec j i) as [-> | Q].
      * rewrite Nat.eqb_refl. destruct (I1 _ _ E) as (F & C). injection H as <-. cbn [a_in feed u_fed u_live]. rewrite F. split; [reflexivity | exact C].
      * destruct (Nat.eqb_spec i j); [congruence |]. rewrite app_nil_r. apply I1. exact H.
    + intros j Q. rewrite length_put in Q by exact B. rewrite fed_snoc, cut_snoc, orb_false_r. destruct (Nat.eqb_spec i j); [lia |]. rewrite app_nil_r. apply I2. exact Q.
  - destruct (nth_error (k_callers s) i) as [a |] eqn:E; [| discriminate]. injection H as <-. pose proof (nth_bound _ _ _ _ E) as B. destruct V as (I1 & I2).
    cbn [with_callers k_callers]. split.
    + intros j b H. rewrite nth_put in H by exact B. rewrite fed_snoc, cut_snoc, app_nil_r. destruct (Nat.eqb_spec j i) as [-> | Q].
      * rewrite Nat.eqb_refl, orb_true_r. destruct (I1 _ _ E) as (F & C). injection H as <-. cbn [a_in cut_off u_fed u_live]. rewrite F. split; reflexivity.
      * destruct (Nat.eqb_spec i j); [congruence |]. rewrite orb_false_r. apply I1. exact H.
    + intros j Q. rewrite length_put in Q by exact B. rewrite fed_snoc, cut_snoc, app_nil_r. destruct (Nat.eqb_spec i j); [lia |]. rewrite orb_false_r. apply I2. exact Q.
  - destruct (nth_error (k_ports s) k) as [o |] eqn:E; [| discriminate]. injection H as <-. apply (inputs_same _ _ _ _ V); [apply same_refl | exact Logic.I].
  - apply (inputs_same _ _ _ _ V); [| exact Logic.I]. unfold caller_step in H. destruct (nth_error (k_callers s) i) as [a |] eqn:E; [| discriminate]. destruct (a_phase a); [| | discriminate].
    + destruct (next_of (a_in a)) as [[x |] |]; [| injection H as <-; eapply same_put; [exact E | reflexivity | reflexivity] | discriminate]. destruct (a_n a =? 0); [discriminate |].
      destruct x; injection H as <-; (eapply same_put; [exact E | reflexivity | reflexivity]).
    + destruct (nth_error (a_grants a) (a_used a)); [injection H as <-; eapply same_put; [exact E | reflexivity | reflexivity] |].
      destruct (m_get (a_sid a) (k_channels s)) as [i' |]; [destruct (Nat.eqb i' i); [discriminate |] |]; injection H as <-; (eapply same_put; [exact E | reflexivity | reflexivity]).
  - apply (inputs_same _ _ _ _ V); [| exact Logic.I]. destruct (nth_error (k_serves s) j) as [v |] eqn:E; [| discriminate]. destruct (serve_step v) as [[v' l] |] eqn:Es; [| discriminate]. injection H as <-.
    destruct (sends_fields j l (with_serves s (put (k_serves s) j v'))) as (F0 & _ & _ & F1 & F2 & _). cbv zeta in *. rewrite F2. apply same_refl.
  - apply (inputs_same _ _ _ _ V); [| exact Logic.I]. destruct (nth_error (k_serves s) j) as [v |] eqn:E; [| discriminate]. destruct (may_feed v x); [| discriminate]. injection H as <-. apply same_refl.
  - apply (inputs_same _ _ _ _ V); [| exact Logic.I]. destruct (nth_error (k_serves s) j) as [v |] eqn:E; [| discriminate]. destruct (v_started v); [| discriminate]. injection H as <-. apply same_refl.
  - apply (inputs_same _ _ _ _ V); [| exact Logic.I]. unfold process_once in H. destruct f as [p | sid | sid code data | sid n | r | r | r | r].
    + injection H as <-. destruct (on_payload_fields (with_hist s (EFrame (RPayloadFrame p))) p) as (_ & _ & F2 & _). rewrite F2. apply same_refl.
    + destruct (on_cancel_fields _ _ _ H) as (_ & _ & F2 & _). rewrite F2. apply same_refl.
    + destruct (on_error_fields _ _ _ _ _ H) as (_ & _ & F2 & _). rewrite F2. apply same_refl.
    + injection H as <-. unfold on_request_n. destruct (n =? 0); [apply same_refl |]. destruct (m_get sid _) as [i |]; [| apply same_refl]. destruct (nth_error _ i) as [a |] eqn:E; [| apply same_refl].
      destruct (a_phase a); first [apply same_refl | eapply same_put; [exact E | reflexivity | reflexivity]].
    + injection H as <-. apply same_refl.
    + injection H as <-. apply same_refl.
    + injection H as <-. apply same_refl.
    + injection H as <-. apply same_refl.
Qed.
Lemma inputs_reached : forall sd ms s, k_moves (new_sock sd) ms = Some s -> inputs (k_callers s) ms.
Proof.
  intros sd. apply (k_moves_ind (fun ms s => inputs (k_callers s) ms)); [| intros; eapply inputs_move; eassumption].
  split; [intros i a E; destruct i; discriminate | intros; split; reflexivity].
Qed.

(** What was returned for requests. *)
Definition returns (l : list serve) (ms : list kmove) : Prop :=
  (forall j v, nth_error l j = Some v -> u_fed (v_src v) = given j ms /\ u_live (v_src v) = negb (quit j ms)) /\
  (forall j, (length l <= j)%nat -> given j ms = [] /\ quit j ms = false).
Definition no_return (m : kmove) : Prop := match m with KGive _ _ | KQuit _ => False | _ => True end.
Lemma no_return_same : forall m ms, no_return m -> forall j, given j (ms ++ [m]) = given j ms /\ quit j (ms ++ [m]) = quit j ms.
Proof. intros m ms Q j. rewrite given_snoc, quit_snoc. destruct m; rewrite ?app_nil_r, ?orb_false_r; try (split; reflexivity); destruct Q. Qed.
Lemma returns_same : forall l ms m, returns l ms -> no_return m -> returns l (ms ++ [m]).
Proof.
  intros l ms m (I1 & I2) Q. split.
  - intros j v E. destruct (no_return_same m ms Q j) as (-> & ->). apply I1. exact E.
  - intros j B. destruct (no_return_same m ms Q j) as (-> & ->). apply I2. exact B.
Qed.
Lemma returns_new : forall l ms m v, returns l ms -> no_return m -> v_src v = new_source -> returns (l ++ [v]) (ms ++ [m]).
Proof.
  intros l ms m v (I1 & I2) Q Sv. split.
  - intros j w E. destruct (no_return_same m ms Q j) as (-> & ->). rewrite nth_snoc in E. destruct (Nat.eqb_spec j (length l)) as [-> | Qj]; [| apply I1; exact E].
    assert (w = v) by congruence. subst w. rewrite Sv. destruct (I2 _ (le_n _)) as (-> & ->). split; reflexivity.
  - intros j B. rewrite app_length in B. cbn [length] in B. destruct (no_return_same m ms Q j) as (-> & ->). apply I2. lia.
Qed.
Lemma step_src : forall v v' l, serve_step v = Some (v', l) -> u_fed (v_src v') = u_fed (v_src v) /\ u_live (v_src v') = u_live (v_src v).
Proof.
  intros [kind sid data started u over] v' l H. unfold serve_step in H. cbn [v_kind v_sid v_data v_started v_src v_over] in *. destruct over; [discriminate |].
  destruct kind.
  - destruct (nth_error (u_fed u) (u_pos u)) as [[p | e |] |]; try discriminate; injection H as <- _; split; reflexivity.
  - destruct (nth_error (u_fed u) (u_pos u)) as [[p | e |] |]; try discriminate; injection H as <- _; split; reflexivity.
  - destruct (negb started); [injection H as <- _; split; reflexivity |]. destruct (next_of u) as [[x |] |]; [| | discriminate]; injection H as <- _; split; reflexivity.
  - destruct (negb started); [injection H as <- _; split; reflexivity |]. destruct (next_of u) as [[x |] |]; [| | discriminate]; injection H as <- _; split; reflexivity.
Qed.
Lemma returns_move : forall s m s' ms, returns (k_serves s) ms -> k_move s m = Some s' -> returns (k_serves s') (ms ++ [m]).
Proof.
  intros s m s' ms V H. destruct m as [c p | | i x | i | k | i | j | j x | j | f]; cbn [k_move] in H.
  - injection H as <-. destruct c; apply returns_same; (exact V || exact Logic.I).
  - injection H as <-. apply returns_same; [exact V | exact Logic.I].
  - destruct (nth_error (k_callers s) i) as [a |] eqn:E; [| discriminate]. destruct (u_live (a_in a)) eqn:Lv; [| discriminate]. injection H as <-. apply returns_same; [exact V | exact Logic.I].
  - destruct (nth_error (k_callers s) i) as [a |] eqn:E; [| discriminate]. injection H as <-. apply returns_same; [exact V | exact Logic.I].
  - destruct (nth_error (k_ports s) k) as [o |] eqn:E; [| discriminate]. injection H as <-. apply returns_same; [exact V | exact Logic.I].
  - assert (X : k_serves s' = k_serves s).
    { unfold caller_step in H. destruct (nth_error (k_callers s) i) as [a |] eqn:E; [| discriminate]. destruct (a_phase a); [| | discriminate].
      - destruct (next_of (a_in a)) as [[x |] |]; [| injection H as <-; reflexivity | discriminate]. destruct (a_n a =? 0); [discriminate |]. destruct x; injection H as <-; reflexivity.
      - destruct (nth_error (a_grants a) (a_used a)); [injection H as <-; reflexivity |].
        destruct (m_get (a_sid a) (k_channels s)) as [i' |]; [destruct (Nat.eqb i' i); [discriminate |] |]; injection H as <-; reflexivity. }
    rewrite X. apply returns_same; [exact V | exact Logic.I].
  - destruct (nth_error (k_serves s) j) as [v |] eqn:E; [| discriminate]. destruct (serve_step v) as [[v' l] |] eqn:Es; [| discriminate]. injection H as <-.
    destruct (sends_fields j l (with_serves s (put (k_serves s) j v'))) as (_ & _ & _ & _ & _ & F2 & _). cbv zeta in *. rewrite F2. cbn [with_serves k_serves]. clear F2.
    destruct (step_src _ _ _ Es) as (F & G). pose proof (nth_bound _ _ _ _ E) as B. destruct V as (I1 & I2). split.
    + intros i w H. destruct (no_return_same (KServe j) ms Logic.I i) as (-> & ->). rewrite nth_put in H by exact B. destruct (Nat.eqb_spec i j) as [-> | Q]; [| apply I1; exact H].
      assert (w = v') by congruence. subst w. rewrite F, G. apply I1. exact E.
    + intros i Q. rewrite length_put in Q by exact B. destruct (no_return_same (KServe j) ms Logic.I i) as (-> & ->). apply I2. exact Q.
  - destruct (nth_error (k_serves s) j) as [v |] eqn:E; [| discriminate]. destruct (may_feed v x); [| discriminate]. injection H as <-. pose proof (nth_bound _ _ _ _ E) as B. destruct V as (I1 & I2).
    cbn [with_serves k_serves]. split.
    + intros i w H. rewrite nth_put in H by exact B. rewrite given_snoc, quit_snoc, orb_false_r. destruct (Nat.eqb_spec i j) as [-> | Q].
      * rewrite Nat.eqb_refl. destruct (I1 _ _ E) as (F & C). injection H as <-. unfold feed_serve, feed. cbn [v_src u_fed u_live]. rewrite F. split; [reflexivity | exact C].
      * destruct (Nat.eqb_spec j i); [congruence |]. rewrite app_nil_r. apply I1. exact H.
    + intros i Q. rewrite length_put in Q by exact B. rewrite given_snoc, quit_snoc, orb_false_r. destruct (Nat.eqb_spec j i); [lia |]. rewrite app_nil_r. apply I2. exact Q.
  - destruct (nth_error (k_serves s) j) as [v |] eqn:E; [| discriminate]. destruct (v_started v); [| discriminate]. injection H as <-. pose proof (nth_bound _ _ _ _ E) as B. destruct V as (I1 & I2).
    cbn [with_serves k_serves]. split.
    + intros i w H. rewrite nth_put in H by exact B. rewrite given_snoc, quit_snoc, app_nil_r. destruct (Nat.eqb_spec i j) as [-> | Q].
      * rewrite Nat.eqb_refl, orb_true_r. destruct (I1 _ _ E) as (F & C). injection H as <-. unfold feed_serve, cut_off. cbn [v_src u_fed u_live]. rewrite F. split; reflexivity.
      * destruct (Nat.eqb_spec j i); [congruence |]. rewrite orb_false_r. apply I1. exact H.
    + intros i Q. rewrite length_put in Q by exact B. rewrite given_snoc, quit_snoc, app_nil_r. destruct (Nat.eqb_spec j i); [lia |]. rewrite orb_false_r. apply I2. exact Q.
  - unfold process_once in H. destruct f as [p | sid | sid code data | sid n | r | r | r | r].
    + injection H as <-. destruct (on_payload_fields (with_hist s (EFrame (RPayloadFrame p))) p) as (_ & _ & _ & F2 & _). rewrite F2. apply returns_same; [exact V | exact Logic.I].
    + destruct (on_cancel_fields _ _ _ H) as (_ & _ & _ & F2 & _). rewrite F2. apply returns_same; [exact V | exact Logic.I].
    + destruct (on_error_fields _ _ _ _ _ H) as (_ & _ & _ & F2 & _). rewrite F2. apply returns_same; [exact V | exact Logic.I].
    + injection H as <-. assert (X : k_serves (on_request_n (with_hist s (EFrame (RRequestN sid n))) sid n) = k_serves s).
      { unfold on_request_n. destruct (n =? 0); [reflexivity |]. destruct (m_get sid _) as [i |]; [| reflexivity]. destruct (nth_error _ i) as [a |] eqn:E; [| reflexivity]. destruct (a_phase a); reflexivity. }
      rewrite X. apply returns_same; [exact V | exact Logic.I].
    + injection H as <-. apply returns_new; [exact V | exact Logic.I | reflexivity].
    + injection H as <-. apply returns_new; [exact V | exact Logic.I | reflexivity].
    + injection H as <-. apply returns_new; [exact V | exact Logic.I | reflexivity].
    + injection H as <-. apply returns_new; [exact V | exact Logic.I | reflexivity].
Qed.
Lemma returns_reached : forall sd ms s, k_moves (new_sock sd) ms = Some s -> returns (k_serves s) ms.
Proof.
  intros sd. apply (k_moves_ind (fun ms s => returns (k_serves s) ms)); [| intros; eapply returns_move; eassumption].
  split; [intros i a E; destruct i; discriminate | intros; split; reflexivity].
Qed.

(** ** Frames that answer frames, and panics *)

Lemma reply_more : forall h l f, reply_ok h f -> reply_ok (h ++ l) f.
Proof.
  intros h l f [(sid & k & kd & -> & Q & A & B) | [(sid & -> & A) | (sid & n & -> & Q & A)]].
  - left. exists sid, k, kd. split; [reflexivity |]. split; [exact Q |]. split; apply in_or_app; left; assumption.
  - right. left. exists sid. split; [reflexivity |]. apply in_or_app. left. exact A.
  - right. right. exists sid, n. split; [reflexivity |]. split; [exact Q |]. apply in_or_app. left. exact A.
Qed.
Lemma dropped_in : forall k l, dropped k l = true -> In (EDrop k) l.
Proof.
  intros k l H. unfold dropped in H. apply existsb_exists in H as (e & H1 & H2). destruct e; try discriminate. apply Nat.eqb_eq in H2. subst. exact H1.
Qed.
Lemma frame_reply : forall s f s' sd n, settled s -> callers_inv sd n s -> process_once s f = Some s' -> exists l, said ByFrame s' = said ByFrame s ++ l /\ Forall (reply_ok (k_hist s ++ [EFrame f])) l.
Proof.
  intros s f s' sd n V C H.
  assert (SAME : k_out s' = k_out s -> exists l, said ByFrame s' = said ByFrame s ++ l /\ Forall (reply_ok (k_hist s ++ [EFrame f])) l).
  { intro E. exists []. rewrite app_nil_r. split; [apply said_same; exact E | constructor]. }
  unfold process_once in H. destruct f as [p | sid | sid code data | sid g | r | r | r | r].
  - injection H as <-. unfold on_payload in *. change (handler_of (with_hist s (EFrame (RPayloadFrame p))) (rp_sid p)) with (handler_of s (rp_sid p)) in *.
    destruct (handler_of s (rp_sid p)) as [[k o] |] eqn:E; [| apply SAME; reflexivity]. destruct (handler_of_get _ _ _ _ E) as (Eg & Ep).
    destruct V as ((_ & W & K) & _). destruct (W _ _ Eg) as (o' & Eo & Es). assert (o' = o) by congruence. subst o'.
    destruct (K _ _ Ep) as (before & after & (Hh & _) & (Ho & _)).
    assert (R : o_open o = false -> o_kind o <> ReqRR -> reply_ok (k_hist s ++ [EFrame (RPayloadFrame p)]) (new_cancel (rp_sid p))).
    { intros Q Qk. left. exists (rp_sid p), k, (o_kind o). split; [reflexivity |]. split; [exact Qk |]. rewrite Q in Ho. symmetry in Ho. apply negb_false_iff in Ho. apply dropped_in in Ho.
      split; apply in_or_app; left; rewrite Hh; apply in_or_app; right; [left; congruence | right; exact Ho]. }
    destruct (o_kind o) eqn:Ko.
    + destruct (rp_next p && o_open o); apply SAME; reflexivity.
    + destruct (rp_next p); [| destruct (rp_complete p); apply SAME; reflexivity]. destruct (o_open o); [destruct (rp_complete p); apply SAME; reflexivity |].
      exists [new_cancel (rp_sid p)]. split; [| constructor; [apply R; [reflexivity | discriminate] | constructor]].
      destruct (rp_complete p); (rewrite (said_same ByFrame (send s ByFrame (new_cancel (rp_sid p)))) by reflexivity; rewrite said_send; reflexivity).
    + destruct (rp_next p); [| destruct (rp_complete p); apply SAME; reflexivity]. destruct (o_open o); [destruct (rp_complete p); apply SAME; reflexivity |].
      exists [new_cancel (rp_sid p)]. split; [| constructor; [apply R; [reflexivity | discriminate] | constructor]].
      destruct (rp_complete p); (rewrite (said_same ByFrame (send s ByFrame (new_cancel (rp_sid p)))) by reflexivity; rewrite said_send; reflexivity).
  - destruct (on_cancel_fields _ _ _ H) as (_ & _ & _ & _ & _ & F). apply SAME. exact F.
  - destruct (on_error_fields _ _ _ _ _ H) as (_ & _ & _ & _ & _ & F). apply SAME. exact F.
  - injection H as <-. unfold on_request_n in *. destruct (N.eqb_spec g 0) as [-> | Q].
    { exists [app_error sid RustCallModel.invalid_n]. rewrite said_send. split; [reflexivity |]. constructor; [| constructor]. right. left. exists sid. split; [reflexivity |]. apply in_or_app. right. left. reflexivity. }
    change (k_channels (with_hist s (EFrame (RRequestN sid g)))) with (k_channels s) in *. change (k_callers (with_hist s (EFrame (RRequestN sid g)))) with (k_callers s) in *.
    destruct (m_get sid (k_channels s)) as [i |] eqn:G.
    + apply (ci_get _ _ _ C) in G as (a & Ea & Sa & Pa). rewrite Ea in *. destruct (a_phase a); [apply SAME; reflexivity | apply SAME; reflexivity | congruence].
    + exists [app_error sid RustCallModel.missing_id]. rewrite said_send. split; [reflexivity |]. constructor; [| constructor]. right. right. exists sid, g. split; [reflexivity |]. split; [exact Q |].
      apply in_or_app. right. left. reflexivity.
  - injection H as <-. apply SAME. reflexivity.
  - injection H as <-. apply SAME. reflexivity.
  - injection H as <-. apply SAME. reflexivity.
  - injection H as <-. apply SAME. reflexivity.
Qed.
Lemma reply_move : forall s m s' sd n, settled s -> callers_inv sd n s -> Forall (reply_ok (k_hist s)) (said ByFrame s) -> k_move s m = Some s' -> Forall (reply_ok (k_hist s')) (said ByFrame s').
Proof.
  intros s m s' sd n V C R H. destruct (hist_move _ _ _ H []) as (_ & (l & Eh)).
  assert (SAME : said ByFrame s' = said ByFrame s -> Forall (reply_ok (k_hist s')) (said ByFrame s')).
  { intros ->. rewrite Eh. eapply Forall_impl; [| exact R]. intros f. apply reply_more. }
  destruct m as [c p | | i x | i | k | i | j | j x | j | f]; cbn [k_move] in H.
  - apply SAME. injection H as <-. destruct c; unfold do_call; cbv zeta; rewrite said_send; cbn [author_eqb]; rewrite app_nil_r; reflexivity.
  - apply SAME. injection H as <-. reflexivity.
  - apply SAME. destruct (nth_error (k_callers s) i) as [a |] eqn:E; [| discriminate]. destruct (u_live (a_in a)) eqn:Lv; [| discriminate]. injection H as <-. reflexivity.
  - apply SAME. destruct (nth_error (k_callers s) i) as [a |] eqn:E; [| discriminate]. injection H as <-. reflexivity.
  - apply SAME. destruct (nth_error (k_ports s) k) as [o |] eqn:E; [| discriminate]. injection H as <-. reflexivity.
  - apply SAME. unfold caller_step in H. destruct (nth_error (k_callers s) i) as [a |] eqn:E; [| discriminate]. destruct (a_phase a); [| | discriminate].
    + destruct (next_of (a_in a)) as [[x |] |]; [| injection H as <-; unfold caller_end; rewrite said_send, app_nil_r; reflexivity | discriminate]. destruct (a_n a =? 0); [discriminate |]. destruct x; injection H as <-; rewrite said_send, app_nil_r; reflexivity.
    + destruct (nth_error (a_grants a) (a_used a)); [injection H as <-; reflexivity |].
      destruct (m_get (a_sid a) (k_channels s)) as [i' |]; [destruct (Nat.eqb i' i); [discriminate |] |]; injection H as <-; unfold caller_end; rewrite said_send, app_nil_r; reflexivity.
  - apply SAME. destruct (nth_error (k_serves s) j) as [v |] eqn:E; [| discriminate]. destruct (serve_step v) as [[v' l'] |] eqn:Es; [| discriminate]. injection H as <-. rewrite said_sends. cbn [author_eqb]. rewrite app_nil_r. reflexivity.
  - apply SAME. destruct (nth_error (k_serves s) j) as [v |] eqn:E; [| discriminate]. destruct (may_feed v x); [| discriminate]. injection H as <-. reflexivity.
  - apply SAME. destruct (nth_error (k_serves s) j) as [v |] eqn:E; [| discriminate]. destruct (v_started v); [| discriminate]. injection H as <-. reflexivity.
  - destruct (frame_reply _ _ _ _ _ V C H) as (w & -> & F). apply Forall_app. destruct (frame_hist _ _ _ H) as (_ & Eh' & _). split.
    + rewrite Eh. eapply Forall_impl; [| exact R]. intros g. apply reply_more.
    + rewrite Eh'. change (EFrame f :: ?x) with ([EFrame f] ++ x). rewrite app_assoc. eapply Forall_impl; [| exact F]. intros g. apply reply_more.
Qed.
Lemma reply_reached : forall sd ms s, k_moves (new_sock sd) ms = Some s -> calls ms <= 2 ^ 31 -> Forall (reply_ok (k_hist s)) (said ByFrame s).
Proof.
  intros sd ms s H.
  enough (X : k_moves (new_sock sd) ms = Some s /\ (calls ms <= 2 ^ 31 -> Forall (reply_ok (k_hist s)) (said ByFrame s))) by apply X.
  revert ms s H. apply (k_moves_ind (fun ms s => k_moves (new_sock sd) ms = Some s /\ (calls ms <= 2 ^ 31 -> Forall (reply_ok (k_hist s)) (said ByFrame s)))).
  - split; [reflexivity |]. intros _. constructor.
  - intros ms s m s' (I1 & I2) H. split; [rewrite k_moves_app, I1; cbn [k_moves]; rewrite H; reflexivity |]. intro L. rewrite calls_snoc in L.
    eapply reply_move; [exact (settled_reached _ _ _ I1) | apply (callers_reached _ _ _ I1); lia | apply I2; lia | exact H].
Qed.

(** Two ways to split a history at the same opening are one. *)
Lemma opened_unique : forall b1 a1 b2 a2 k1 h1 s1 k2 h2 s2, b1 ++ EOpen k1 h1 s1 :: a1 = b2 ++ EOpen k2 h2 s2 :: a2 -> openings b1 = openings b2 ->
  b1 = b2 /\ k1 = k2 /\ h1 = h2 /\ s1 = s2 /\ a1 = a2.
Proof.
  induction b1 as [| e b1 IH]; intros a1 b2 a2 k1 h1 s1 k2 h2 s2 E Q; destruct b2 as [| e2 b2]; cbn [app] in E.
  - injection E as -> -> -> ->. auto.
  - injection E as <- E. discriminate Q.
  - injection E as -> E. discriminate Q.
  - injection E as <- E. assert (X : openings b1 = openings b2). { unfold openings in *. cbn [filter] in Q. destruct e; cbn [length] in Q; lia. }
    destruct (IH _ _ _ _ _ _ _ _ _ E X) as (-> & -> & -> & -> & ->). auto.
Qed.
Lemma port_of : forall s before after k h sid, settled s -> opened (k_hist s) before after k h sid ->
  exists o, nth_error (k_ports s) k = Some o /\ o_kind o = h /\ o_sid o = sid /\ kept (k_handlers s) before after k o.
Proof.
  intros s before after k h sid ((L & W & K) & _) (E & Q). assert (B : (k < length (k_ports s))%nat).
  { rewrite <- L, E, openings_app. unfold openings at 2. cbn [filter length]. lia. }
  destruct (nth_error (k_ports s) k) as [o |] eqn:Eo; [| apply nth_error_None in Eo; lia]. exists o. split; [reflexivity |].
  destruct (K _ _ Eo) as (b' & a' & (E' & Q') & KK). rewrite E in E'. apply opened_unique in E'; [| congruence]. destruct E' as (-> & _ & -> & -> & ->). auto.
Qed.

Lemma panic_iff : forall s f, settled s -> process_once s f = None <-> fatal (k_hist s) f.
Proof.
  intros s f V. split.
  - intro H. assert (X : exists k o, handler_of s (RustStreamModel.rframe_sid f) = Some (k, o) /\ o_open o = false /\ match f with RErrorFrame _ _ _ => True | RCancel _ => o_kind o = ReqRR | _ => False end).
    { unfold process_once in H. destruct f as [p | sid | sid code data | sid g | r | r | r | r]; try discriminate.
      - unfold on_cancel in H. change (handler_of (with_hist s (EFrame (RCancel sid))) sid) with (handler_of s sid) in H. destruct (handler_of s sid) as [[k o] |] eqn:E; [| discriminate].
        destruct (o_kind o) eqn:Ko; try discriminate. destruct (o_open o) eqn:Oo; [discriminate |]. exists k, o. auto.
      - unfold on_error in H. change (handler_of (with_hist s (EFrame (RErrorFrame sid code data))) sid) with (handler_of s sid) in H. destruct (handler_of s sid) as [[k o] |] eqn:E; [| discriminate].
        destruct (o_open o) eqn:Oo; [discriminate |]. exists k, o. auto. }
    destruct X as (k & o & E & Oo & M). destruct (handler_of_get _ _ _ _ E) as (Eg & Ep). destruct V as ((_ & W & K) & _). destruct (W _ _ Eg) as (o' & Eo & Es). assert (o' = o) by congruence. subst o'.
    destruct (K _ _ Ep) as (b & a & O & (K1 & _ & K3)). rewrite Es in *. apply K3 in Eg as (D1 & D2). exists b, a, k, (o_kind o). split; [exact O |]. split; [exact D1 |]. split; [exact D2 |]. split; [| exact M].
    rewrite Oo in K1. symmetry in K1. apply negb_false_iff. exact K1.
  - intros (b & a & k & h & O & D1 & D2 & Dk & M). destruct (port_of _ _ _ _ _ _ V O) as (o & Eo & <- & Es & (K1 & _ & K3)). rewrite Dk in K1. cbn [negb] in K1.
    rewrite Es in K3. assert (Eg : m_get (RustStreamModel.rframe_sid f) (k_handlers s) = Some k) by (apply K3; auto).
    assert (Hh : handler_of s (RustStreamModel.rframe_sid f) = Some (k, o)) by (unfold handler_of; rewrite Eg, Eo; reflexivity).
    unfold process_once. destruct f as [p | sid | sid code data | sid g | r | r | r | r]; try contradiction; cbn [RustStreamModel.rframe_sid] in Hh.
    + unfold on_cancel. change (handler_of (with_hist s (EFrame (RCancel sid))) sid) with (handler_of s sid). rewrite Hh, M, K1. reflexivity.
    + unfold on_error. change (handler_of (with_hist s (EFrame (RErrorFrame sid code data))) sid) with (handler_of s sid). rewrite Hh, K1. reflexivity.
Qed.

(** ** What was said, and what is left *)

Lemma mono_owed : forall v sid l live, mono_kind v = true -> owed v sid l live = mono_frames v sid l.
Proof. intros [] sid l live H; try discriminate; reflexivity. Qed.
Lemma stream_owed : forall v sid l live, mono_kind v = false ->
  owed v sid l live = (match v with VChannel => [RRequestN sid 0x7fffffff] | _ => [] end) ++ map (item_frame sid) (until_complete l) ++ if completed l || negb live then [end_frame sid] else [].
Proof. intros [] sid l live H; try discriminate; reflexivity. Qed.
Lemma serve_prefix : forall w v, serve_ok w v -> prefix w (owed (v_kind v) (v_sid v) (u_fed (v_src v)) (u_live (v_src v))).
Proof.
  intros w v K. unfold serve_ok in K. destruct (mono_kind (v_kind v)) eqn:M.
  - destruct K as (_ & _ & _ & _ & ->). rewrite mono_owed by exact M. destruct (v_over v); [exists []; rewrite app_nil_r; reflexivity | eexists; reflexivity].
  - destruct K as (G & S & ->). rewrite stream_owed by exact M. destruct (v_started v); [| destruct (S eq_refl) as (E1 & E2 & E3 & E4); rewrite E1, E2, E4; cbn [firstn map app]; eexists; reflexivity].
    destruct (v_over v) eqn:O.
    + destruct (good_over _ G) as (-> & ->). exists []. rewrite app_nil_r. reflexivity.
    + destruct (good_until _ _ G) as (c & ->). rewrite app_nil_r, map_app. eexists. rewrite <- !app_assoc. reflexivity.
Qed.
Lemma serve_complete : forall w v, serve_ok w v -> serve_step v = None -> w = owed (v_kind v) (v_sid v) (u_fed (v_src v)) (u_live (v_src v)).
Proof.
  intros w [kind sid data started u over] K H. unfold serve_ok in K. unfold serve_step in H. cbn [v_kind v_sid v_data v_started v_src v_over] in *. destruct (mono_kind kind) eqn:M.
  - destruct K as (_ & F & P & Q & ->). rewrite mono_owed by exact M. destruct over; [reflexivity |]. rewrite P in H. destruct F as [F | (x & Qx & F)]; rewrite F in *.
    + destruct kind; reflexivity || discriminate.
    + cbn [nth_error] in H. destruct kind; try discriminate; destruct x; (discriminate || congruence).
  - destruct K as (G & S & ->). rewrite stream_owed by exact M. destruct over.
    + destruct (good_over _ G) as (-> & ->). destruct started; [reflexivity |]. destruct (S eq_refl) as (_ & _ & _ & ?). discriminate.
    + destruct kind; try discriminate M; destruct started; cbn [negb] in H; try discriminate; (destruct (next_of u) as [[x |] |] eqn:En; try discriminate; destruct (good_idle _ G En) as (-> & ->); reflexivity).
Qed.

Lemma good_first : forall u over, good_source u over -> firstn (u_pos u) (u_fed u) = firstn (u_pos u) (until_complete (u_fed u)).
Proof.
  intros u over G. destruct (good_until _ _ G) as (c & E). rewrite E, firstn_app, firstn_firstn, Nat.min_id. destruct G as (L & _). rewrite firstn_length_le by exact L.
  rewrite Nat.sub_diag. cbn [firstn]. rewrite app_nil_r. reflexivity.
Qed.
Lemma caller_prefix : forall w a, caller_ok w a -> prefix w (channel_owed (a_sid a) (u_fed (a_in a)) (u_live (a_in a))).
Proof.
  intros w a (G & -> & _). unfold channel_owed. destruct (ended a).
  - destruct (good_over _ G) as (-> & ->). exists []. rewrite app_nil_r. reflexivity.
  - destruct (good_until _ _ G) as (c & ->). rewrite app_nil_r, channel_frames_app. eexists. rewrite <- app_assoc. reflexivity.
Qed.
Lemma total_le : forall k l, total (firstn k l) <= total l.
Proof. intros k l. rewrite <- (firstn_skipn k l) at 2. rewrite total_app. lia. Qed.
Lemma prefix_total : forall a b, prefix a b -> total a <= total b.
Proof. intros a b (c & ->). rewrite total_app. lia. Qed.

(** The channels of a reachable socket: with what was fed, cut, granted and said. *)
Lemma channel_of : forall sd ms s i sid, k_moves (new_sock sd) ms = Some s -> calls ms <= 2 ^ 31 -> In (EChannel i sid) (k_hist s) ->
  exists before after a, k_hist s = before ++ EChannel i sid :: after /\ nth_error (k_callers s) i = Some a /\ a_sid a = sid /\ caller_ok (said (ByCaller i) s) a /\
    u_fed (a_in a) = fed i ms /\ u_live (a_in a) = negb (cut i ms) /\ prefix (a_grants a) (granted sid after) /\ (a_phase a <> Ended -> a_grants a = granted sid after).
Proof.
  intros sd ms s i sid H L Hi. pose proof (callers_reached _ _ _ H L) as C.
  assert (X : exists a, nth_error (k_callers s) i = Some a /\ a_sid a = sid).
  { clear C. revert Hi. revert ms s H L. enough (X : forall ms s, k_moves (new_sock sd) ms = Some s -> (forall i sid, In (EChannel i sid) (k_hist s) -> exists a, nth_error (k_callers s) i = Some a /\ a_sid a = sid)).
    { intros ms s H _. apply (X _ _ H). }
    apply (k_moves_ind (fun _ s => forall i sid, In (EChannel i sid) (k_hist s) -> exists a, nth_error (k_callers s) i = Some a /\ a_sid a = sid)); [intros ? ? [] |].
    clear i sid. intros ms s m s' I H i sid Hi.
    assert (PUT : forall j b b', nth_error (k_callers s) j = Some b -> a_sid b' = a_sid b -> In (EChannel i sid) (k_hist s) -> exists a, nth_error (put (k_callers s) j b') i = Some a /\ a_sid a = sid).
    { intros j b b' E Q Hi'. destruct (I _ _ Hi') as (a & Ea & Sa). rewrite nth_put by (eapply nth_bound; exact E). destruct (Nat.eqb_spec i j) as [-> | Qj]; [| eauto]. exists b'. split; [reflexivity | congruence]. }
    destruct m as [c p | | i0 x | i0 | k | i0 | j | j x | j | f]; cbn [k_move] in H.
    - injection H as <-. destruct c; cbn in Hi |- *; apply I; [exact Hi | |]; apply in_app_or in Hi as [Hi | [Hi | []]]; (exact Hi || discriminate).
    - injection H as <-. cbn in Hi |- *. rewrite <- app_assoc in Hi. apply in_app_or in Hi as [Hi | [Hi | [Hi | []]]]; [| discriminate |].
      + destruct (I _ _ Hi) as (a & Ea & Sa). exists a. rewrite nth_error_app1 by (eapply nth_bound; exact Ea). auto.
      + injection Hi as <- <-. rewrite nth_error_app2, Nat.sub_diag by apply le_n. eexists. split; reflexivity.
    - destruct (nth_error (k_callers s) i0) as [b |] eqn:E; [| discriminate]. destruct (u_live (a_in b)); [| discriminate]. injection H as <-. apply (PUT _ _ _ E); [reflexivity | exact Hi].
    - destruct (nth_error (k_callers s) i0) as [b |] eqn:E; [| discriminate]. injection H as <-. apply (PUT _ _ _ E); [reflexivity | exact Hi].
    - destruct (nth_error (k_ports s) k) as [o |] eqn:E; [| discriminate]. injection H as <-. cbn in Hi |- *. apply in_app_or in Hi as [Hi | [Hi | []]]; [apply I; exact Hi | discriminate].
    - unfold caller_step in H. destruct (nth_error (k_callers s) i0) as [b |] eqn:E; [| discriminate]. destruct (a_phase b); [| | discriminate].
      + destruct (next_of (a_in b)) as [[x |] |]; [| injection H as <-; apply (PUT _ _ _ E); [reflexivity | exact Hi] | discriminate]. destruct (a_n b =? 0); [discriminate |].
        destruct x; injection H as <-; (apply (PUT _ _ _ E); [reflexivity | exact Hi]).
      + destruct (nth_error (a_grants b) (a_used b)); [injection H as <-; apply (PUT _ _ _ E); [reflexivity | exact Hi] |].
        destruct (m_get (a_sid b) (k_channels s)) as [i' |]; [destruct (Nat.eqb i' i0); [discriminate |] |]; injection H as <-; (apply (PUT _ _ _ E); [reflexivity | exact Hi]).
    - destruct (nth_error (k_serves s) j) as [v |] eqn:E; [| discriminate]. destruct (serve_step v) as [[v' l] |] eqn:Es; [| discriminate]. injection H as <-.
      destruct (sends_fields j l (with_serves s (put (k_serves s) j v'))) as (_ & _ & _ & _ & F2 & _ & F3 & _). cbv zeta in *. rewrite F2. rewrite F3 in Hi. apply I. exact Hi.
    - destruct (nth_error (k_serves s) j) as [v |] eqn:E; [| discriminate]. destruct (may_feed v x); [| discriminate]. injection H as <-. apply I. exact Hi.
    - destruct (nth_error (k_serves s) j) as [v |] eqn:E; [| discriminate]. destruct (v_started v); [| discriminate]. injection H as <-. apply I. exact Hi.
    - assert (Hi' : In (EChannel i sid) (k_hist s)).
      { destruct (frame_hist _ _ _ H) as (_ & Eh & _). rewrite Eh in Hi. apply in_app_or in Hi as [Hi | Hi]; [exact Hi |]. destruct f; cbn in Hi; repeat (destruct Hi as [Hi | Hi]; [discriminate |]); contradiction. }
      unfold process_once in H. destruct f as [p | sid0 | sid0 code data | sid0 n | r | r | r | r].
      + injection H as <-. destruct (on_payload_fields (with_hist s (EFrame (RPayloadFrame p))) p) as (_ & _ & F2 & _). rewrite F2. apply I. exact Hi'.
      + destruct (on_cancel_fields _ _ _ H) as (_ & _ & F2 & _). rewrite F2. apply I. exact Hi'.
      + destruct (on_error_fields _ _ _ _ _ H) as (_ & _ & F2 & _). rewrite F2. apply I. exact Hi'.
      + injection H as <-. unfold on_request_n. destruct (n =? 0); [apply I; exact Hi' |]. destruct (m_get sid0 _) as [i1 |]; [| apply I; exact Hi']. destruct (nth_error _ i1) as [b |] eqn:E; [| apply I; exact Hi'].
        destruct (a_phase b); first [apply I; exact Hi' | apply (PUT _ _ _ E); [reflexivity | exact Hi']].
      + injection H as <-. apply I. exact Hi'.
      + injection H as <-. apply I. exact Hi'.
      + injection H as <-. apply I. exact Hi'.
      + injection H as <-. apply I. exact Hi'. }
  destruct X as (a & Ea & Sa). destruct (ci_grants _ _ _ C _ _ Ea) as (before & after & Eh & P & G). rewrite Sa in *. destruct (proj1 (inputs_reached _ _ _ H) _ _ Ea) as (F1 & F2).
  exists before, after, a. split; [exact Eh |]. split; [exact Ea |]. split; [exact Sa |]. split; [exact (ci_ok _ _ _ C _ _ Ea) |]. auto.
Qed.
