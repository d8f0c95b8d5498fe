(** Proofs about the passing of frames through a host instance. *)
From Coq Require Import List Bool Arith Lia.
From Verif Require Import PipeModel PipeSpec.
Import ListNotations.

Section Proofs.
Context {F : Type}.
Variable fits : list F -> F -> bool.
Notation piped := (piped fits).
Notation pstep := (pstep fits).
Notation pruns := (pruns fits).

Lemma pruns_app : forall l1 l2 s, pruns s (l1 ++ l2) = match pruns s l1 with Some s' => pruns s' l2 | None => None end.
Proof. induction l1 as [|a l1 IH]; intros l2 s; [reflexivity|]. cbn [app PipeModel.pruns]. destruct (pstep s a); [apply IH|reflexivity]. Qed.
Lemma piped_snoc : forall tr a s, piped (tr ++ [a]) s -> exists s0, piped tr s0 /\ pstep s0 a = Some s.
Proof.
  intros tr a s R. unfold PipeSpec.piped in *. rewrite pruns_app in R. destruct (pruns new_pipe tr) as [s0|]; [|discriminate R]. exists s0. split; [reflexivity|]. cbn [PipeModel.pruns] in R. destruct (pstep s0 a); [exact R|discriminate R].
Qed.
Lemma piped_ind : forall (P : list (paction F) -> pipe F -> Prop), P [] new_pipe -> (forall tr a s s', piped tr s -> P tr s -> pstep s a = Some s' -> P (tr ++ [a]) s') ->
  forall tr s, piped tr s -> P tr s.
Proof.
  intros P H0 H1 tr. induction tr as [|a tr IH] using rev_ind; intros s R.
  - unfold PipeSpec.piped in R. cbn in R. assert (new_pipe = s) as <- by congruence. exact H0.
  - destruct (piped_snoc _ _ _ R) as (s0 & R0 & D). exact (H1 tr a s0 s R0 (IH s0 R0) D).
Qed.

(** The frame sendLoop has in hand. *)
Definition in_hand (pc : spc F) : list F := match pc with SWrite f => [f] | SCall (Some f) | SHost _ (Some f) => [f] | _ => [] end.
(** Where sendLoop may have frames written. *)
Definition buffers (pc : spc F) : bool := match pc with SWrite _ | SInner => true | _ => false end.

Record pinv (s : pipe F) : Prop := mkPinv {
  i_sent : p_sent s = p_given s ++ p_buf s ++ in_hand (p_sloop s) ++ p_send s;
  i_received : p_received s = p_handled s ++ p_recv s;
  i_send : length (p_send s) <= cap;
  i_recv : length (p_recv s) <= cap;
  i_buf : buffers (p_sloop s) = false -> p_buf s = [];
  i_inner : p_sloop s = SInner -> p_buf s <> [];
  i_ended : p_sloop s = SEnded -> p_closed s = true /\ p_send s = [];
  i_rended : p_rloop s = REnded -> p_closed s = true /\ p_recv s = [] }.

Ltac pflat := cbn [p_send p_recv p_closed p_sloop p_rloop p_pending p_buf p_crashed p_sent p_given p_received p_handled in_hand buffers crash length] in *.

Lemma pinv_new : pinv new_pipe.
Proof. constructor; cbn; try reflexivity; try discriminate; try lia. Qed.
Lemma pinv_crash : forall s, pinv s -> pinv (crash s).
Proof. intros [q r cl sl rl pe b cr l1 l2 l3 l4] [A B C D E G H I]. constructor; pflat; assumption. Qed.

Lemma pinv_step : forall s a s', pinv s -> pstep s a = Some s' -> pinv s'.
Proof.
  intros s a s' I D. assert (Ic := pinv_crash s I). destruct s as [q r cl sl rl pe b cr l1 l2 l3 l4]. destruct I as [A B C D0 E G H J]. cbn [PipeModel.pstep] in D. destruct cr; [discriminate D|]. pflat.
  destruct a as [| | | | | | |n|fs|g|g|].
  - destruct sl as [|f| |k|fs k|]; try discriminate D.
    + specialize (E eq_refl). subst b. destruct q as [|f q].
      * destruct cl; [|discriminate D]. injection D as <-. constructor; pflat; try assumption; try reflexivity; try discriminate; intros _; split; reflexivity.
      * injection D as <-. constructor; pflat; try assumption; try reflexivity; try discriminate; lia.
    + destruct q as [|f q].
      * destruct cl; [injection D as <-; exact Ic|]. destruct b as [|g b]; [contradiction (G eq_refl); reflexivity|]. injection D as <-. constructor; pflat; try assumption; try reflexivity; try discriminate. rewrite A. cbn [app]. rewrite !app_nil_r. reflexivity.
      * injection D as <-. constructor; pflat; try assumption; try reflexivity; try discriminate; lia.
  - destruct sl as [|f| |k|fs k|]; try discriminate D. destruct (fits b f); injection D as <-; constructor; pflat; try assumption; try reflexivity; try discriminate.
    + rewrite A, <- !app_assoc. reflexivity.
    + intros _ X. apply app_eq_nil in X as [_ X]. discriminate X.
    + rewrite A, <- !app_assoc. reflexivity.
  - destruct sl as [|f| |k|[|f fs] k|]; try discriminate D.
    + injection D as <-. constructor; pflat; try assumption; try reflexivity; try discriminate.
    + destruct cl; [injection D as <-; exact Ic|]. destruct (Nat.ltb_spec (length r) cap) as [Lr|Lr]; [|discriminate D]. injection D as <-. constructor; pflat; try assumption; try reflexivity; try discriminate.
      * rewrite B, app_assoc. reflexivity.
      * rewrite app_length. cbn [length]. lia.
      * intro X. destruct (J X) as [Y _]. discriminate Y.
  - destruct sl as [|f| |[f|]|fs k|]; try discriminate D; injection D as <-; constructor; pflat; try assumption; try reflexivity; try discriminate.
    + rewrite A, (E eq_refl), <- !app_assoc. reflexivity.
    + intros _ X. apply app_eq_nil in X as [_ X]. discriminate X.
  - destruct rl as [|f|f g|]; try discriminate D. destruct r as [|f r].
    + destruct cl; [|discriminate D]. injection D as <-. constructor; pflat; try assumption; try reflexivity; try discriminate. intros _. split; reflexivity.
    + injection D as <-. constructor; pflat; try assumption; try reflexivity; try discriminate; [rewrite B, <- app_assoc; reflexivity|lia].
  - destruct rl as [|f|f g|]; try discriminate D. injection D as <-. constructor; pflat; try assumption; try reflexivity; try discriminate.
  - destruct rl as [|f|f g|]; try discriminate D. destruct cl; [injection D as <-; exact Ic|]. destruct (Nat.ltb_spec (length q) cap) as [Lq|Lq]; [|discriminate D]. injection D as <-. constructor; pflat; try assumption; try reflexivity; try discriminate.
    + rewrite A, <- !app_assoc. reflexivity.
    + rewrite app_length. cbn [length]. lia.
    + intro X. destruct (H X) as [Y _]. discriminate Y.
  - destruct (nth_error pe n) as [g|]; [|discriminate D]. destruct cl; [injection D as <-; exact Ic|]. destruct (Nat.ltb_spec (length q) cap) as [Lq|Lq]; [|discriminate D]. injection D as <-. constructor; pflat; try assumption; try reflexivity; try discriminate.
    + rewrite A, <- !app_assoc. reflexivity.
    + rewrite app_length. cbn [length]. lia.
    + intro X. destruct (H X) as [Y _]. discriminate Y.
  - destruct sl as [|f| |k|fs0 k|]; try discriminate D. injection D as <-. constructor; pflat; try assumption; try reflexivity; try discriminate.
  - destruct rl as [|f|f g0|]; try discriminate D. injection D as <-. constructor; pflat; try assumption; try reflexivity; try discriminate.
  - injection D as <-. constructor; pflat; try assumption; try reflexivity; try discriminate.
  - destruct cl; [injection D as <-; exact Ic|]. injection D as <-. constructor; pflat; try assumption; try reflexivity; try discriminate.
    + intro X. destruct (H X) as [Y _]. discriminate Y.
    + intro X. destruct (J X) as [Y _]. discriminate Y.
Qed.
Lemma piped_pinv : forall tr s, piped tr s -> pinv s.
Proof. apply piped_ind; [exact pinv_new|]. intros tr a s s' _ I D. exact (pinv_step s a s' I D). Qed.

(** ** Being stuck *)
Lemma cap_pos : 0 < cap.
Proof. unfold cap. lia. Qed.
Lemma stuck_open : forall s, pinv s -> p_closed s = false -> p_crashed s = false -> stuck fits s -> idle s \/ deadlocked s.
Proof.
  intros s I Cl Cr St. destruct s as [q r cl sl rl pe b cr l1 l2 l3 l4]. destruct I as [A B C D0 E G H J]. pflat. subst cl cr. assert (Cp := cap_pos).
  (* what recvLoop can be waiting for *)
  assert (HR : (rl = RIdle /\ r = []) \/ (exists f g, rl = RSend f g /\ length q = cap)).
  { destruct rl as [|f|f g|].
    - specialize (St PRecv eq_refl). cbn in St. destruct r; [left; split; reflexivity|discriminate St].
    - specialize (St PHandled eq_refl). discriminate St.
    - specialize (St PHandlerSend eq_refl). cbn [PipeModel.pstep] in St. destruct (Nat.ltb_spec (length q) cap) as [Lq|Lq]; [discriminate St|]. right. exists f, g. split; [reflexivity|lia].
    - destruct (J eq_refl) as [X _]. discriminate X. }
  assert (HS : (sl = SOuter /\ q = []) \/ (exists f fs k, sl = SHost (f :: fs) k /\ length r = cap)).
  { destruct sl as [|f| |k|fs k|].
    - specialize (St PLoop eq_refl). cbn in St. destruct q; [left; split; reflexivity|discriminate St].
    - specialize (St PWrite eq_refl). cbn in St. destruct (fits b f); discriminate St.
    - specialize (St PLoop eq_refl). cbn in St. destruct q; [destruct b|]; discriminate St.
    - specialize (St PReturn eq_refl). cbn in St. destruct k; discriminate St.
    - specialize (St PPush eq_refl). cbn [PipeModel.pstep] in St. destruct fs as [|f fs]; [discriminate St|]. destruct (Nat.ltb_spec (length r) cap) as [Lr|Lr]; [discriminate St|]. right. exists f, fs, k. split; [reflexivity|lia].
    - destruct (H eq_refl) as [X _]. discriminate X. }
  destruct HS as [[-> ->]|(f & fs & k & -> & Lr)]; destruct HR as [[-> ->]|(h & g & -> & Lq)].
  - left. split; [reflexivity|]. split; [reflexivity|]. pflat. split; [|split].
    + destruct pe as [|x pe]; [reflexivity|]. specialize (St (PSender 0) eq_refl). cbn in St. discriminate St.
    + rewrite A, (E eq_refl). cbn. rewrite !app_nil_r. reflexivity.
    + rewrite B, app_nil_r. reflexivity.
  - cbn in Lq. lia.
  - cbn in Lr. lia.
  - right. split; [exists f, fs, k; reflexivity|]. split; [exists h, g; reflexivity|]. split; assumption.
Qed.
Lemma idle_stuck : forall s, pinv s -> p_closed s = false -> idle s -> stuck fits s.
Proof.
  intros s I Cl (P1 & P2 & P3 & P4 & P5) a O. destruct s as [q r cl sl rl pe b cr l1 l2 l3 l4]. destruct I as [A B C D0 E G H J]. pflat. subst sl rl pe cl. rewrite (E eq_refl), P4 in A. rewrite P5 in B. cbn [app in_hand] in A.
  assert (q = []) as -> by (apply (app_inv_head l1); rewrite <- A, app_nil_r; reflexivity). assert (r = []) as -> by (apply (app_inv_head l3); rewrite <- B, app_nil_r; reflexivity).
  destruct cr; [reflexivity|]. destruct a as [| | | | | | |n|fs|g|g|]; try discriminate O; try reflexivity. cbn. destruct n; reflexivity.
Qed.
Lemma deadlock_stuck : forall s, p_closed s = false -> deadlocked s -> forall a, own a = true -> pstep s a = None.
Proof.
  intros s Cl ((f & fs & k & P1) & (h & g & P2) & P3 & P4) a O. destruct s as [q r cl sl rl pe b cr l1 l2 l3 l4]. pflat. subst. destruct cr; [reflexivity|].
  destruct a as [| | | | | | |n|fs0|g0|g0|]; try discriminate O; try reflexivity; cbn [PipeModel.pstep]; rewrite ?P3, ?P4, ?Nat.ltb_irrefl; try reflexivity. destruct (nth_error pe n); reflexivity.
Qed.
(** A deadlock is for ever, and closing ends the program. *)
Lemma deadlock_step : forall s a s', p_closed s = false -> deadlocked s -> pstep s a = Some s' -> (exists g, a = EUser g) /\ deadlocked s' /\ p_closed s' = false \/ a = EClose.
Proof.
  intros s a s' Cl Dl D. destruct (own a) eqn:O; [rewrite (deadlock_stuck s Cl Dl a O) in D; discriminate D|]. destruct Dl as ((f & fs & k & P1) & (h & g & P2) & P3 & P4). destruct s as [q r cl sl rl pe b cr l1 l2 l3 l4]. pflat. subst.
  cbn [PipeModel.pstep] in D. destruct cr; [discriminate D|]. destruct a as [| | | | | | |n|fs0|g0|g0|]; try discriminate O; try discriminate D; [|right; reflexivity]. left. injection D as <-. split; [exists g0; reflexivity|]. split; [|reflexivity].
  split; [exists f, fs, k; reflexivity|]. split; [exists h, g; reflexivity|]. split; assumption.
Qed.

(** ** Work *)
Lemma work_step : forall s a s', own a = true -> pstep s a = Some s' -> p_crashed s' = true \/ work s' < work s.
Proof.
  intros s a s' O D. destruct s as [q r cl sl rl pe b cr l1 l2 l3 l4]. cbn [PipeModel.pstep] in D. destruct cr; [discriminate D|]. unfold work. pflat.
  destruct a as [| | | | | | |n|fs|g|g|]; try discriminate O.
  - destruct sl as [|f| |k|fs k|]; try discriminate D; destruct q as [|f' q].
    + destruct cl; [|discriminate D]. injection D as <-. right. pflat. cbn [work_s]. lia.
    + injection D as <-. right. pflat. cbn [work_s]. lia.
    + destruct cl; [injection D as <-; left; reflexivity|]. destruct b; injection D as <-; right; pflat; cbn [work_s]; lia.
    + injection D as <-. right. pflat. cbn [work_s]. lia.
  - destruct sl as [|f| |k|fs k|]; try discriminate D. destruct (fits b f); injection D as <-; right; pflat; cbn [work_s]; lia.
  - destruct sl as [|f| |k|[|f fs] k|]; try discriminate D.
    + injection D as <-. right. pflat. destruct k; cbn [work_s length]; lia.
    + destruct cl; [injection D as <-; left; reflexivity|]. destruct (length r <? cap); [|discriminate D]. injection D as <-. right. pflat. rewrite app_length. destruct k; cbn [work_s length]; lia.
  - destruct sl as [|f| |[f|]|fs k|]; try discriminate D; injection D as <-; right; pflat; cbn [work_s]; lia.
  - destruct rl as [|f|f g|]; try discriminate D. destruct r as [|f r].
    + destruct cl; [|discriminate D]. injection D as <-. right. pflat. cbn [work_r]. lia.
    + injection D as <-. right. pflat. cbn [work_r]. lia.
  - destruct rl as [|f|f g|]; try discriminate D. injection D as <-. right. pflat. cbn [work_r]. lia.
  - destruct rl as [|f|f g|]; try discriminate D. destruct cl; [injection D as <-; left; reflexivity|]. destruct (length q <? cap); [|discriminate D]. injection D as <-. right. pflat. rewrite app_length. cbn [work_r length]. lia.
  - destruct (nth_error pe n) as [g|] eqn:En; [|discriminate D]. destruct cl; [injection D as <-; left; reflexivity|]. destruct (length q <? cap); [|discriminate D]. injection D as <-. right. pflat.
    assert (Ln : n < length pe) by (apply nth_error_Some; congruence). change (match pe with [] => [] | _ :: l => skipn n l end) with (skipn (S n) pe). rewrite !app_length, firstn_length, skipn_length. cbn [length]. lia.
Qed.
Lemma crashed_none : forall s a, p_crashed s = true -> pstep s a = None.
Proof. intros [q r cl sl rl pe b cr l1 l2 l3 l4] a Cr. pflat. subst cr. reflexivity. Qed.
Lemma own_runs : forall l s s', forallb own l = true -> pruns s l = Some s' -> length l <= S (work s).
Proof.
  induction l as [|a l IH]; intros s s' O R; [cbn; lia|]. cbn [forallb PipeModel.pruns] in *. apply andb_prop in O as [Oa O]. destruct (pstep s a) as [s1|] eqn:D; [|discriminate R].
  destruct (work_step s a s1 Oa D) as [Cr|W].
  - destruct l as [|a' l]; [cbn; lia|]. cbn [PipeModel.pruns] in R. rewrite (crashed_none s1 a' Cr) in R. discriminate R.
  - specialize (IH s1 s' O R). cbn [length]. lia.
Qed.
(** Left alone the instance gets stuck, one way or the other; by a computation of what to do next. *)
Definition next (s : pipe F) : option (paction F) :=
  find (fun a => match pstep s a with Some _ => true | None => false end) [PLoop; PWrite; PPush; PReturn; PRecv; PHandled; PHandlerSend; PSender 0].
Lemma next_stuck : forall s, next s = None -> stuck fits s.
Proof.
  intros s N a O. unfold next in N. assert (X := find_none _ _ N). assert (Y : forall a', In a' [PLoop; PWrite; PPush; PReturn; PRecv; PHandled; PHandlerSend; PSender 0] -> pstep s a' = None).
  { intros a' Ha. specialize (X a' Ha). cbn beta in X. destruct (pstep s a'); [discriminate X|reflexivity]. }
  destruct a as [| | | | | | |n|fs|g|g|]; try discriminate O; try (apply Y; cbn; tauto).
  assert (Y0 := Y (PSender 0) ltac:(cbn; tauto)). destruct s as [q r cl sl rl pe b cr l1 l2 l3 l4]. cbn [PipeModel.pstep] in *. destruct cr; [reflexivity|]. destruct pe as [|x pe]; [destruct n; reflexivity|]. cbn [nth_error] in Y0.
  destruct cl; [discriminate Y0|]. destruct (length q <? cap); [discriminate Y0|]. destruct (nth_error (x :: pe) n); reflexivity.
Qed.
Lemma settles : forall n s, work s < n -> exists l s', forallb own l = true /\ pruns s l = Some s' /\ stuck fits s'.
Proof.
  induction n as [|n IH]; intros s W; [lia|]. destruct (next s) as [a|] eqn:N.
  - unfold next in N. destruct (find_some _ _ N) as [Ha E]. assert (Oa : own a = true) by (cbn in Ha; repeat (destruct Ha as [<-|Ha]; [reflexivity|]); contradiction).
    destruct (pstep s a) as [s1|] eqn:D; [|discriminate E]. destruct (work_step s a s1 Oa D) as [Cr|L].
    + exists [a], s1. split; [cbn; rewrite Oa; reflexivity|]. split; [cbn [PipeModel.pruns]; rewrite D; reflexivity|]. intros a' _. exact (crashed_none s1 a' Cr).
    + destruct (IH s1) as (l & s' & O & R & St); [lia|]. exists (a :: l), s'. split; [cbn [forallb]; rewrite Oa; exact O|]. split; [cbn [PipeModel.pruns]; rewrite D; exact R|exact St].
  - exists [], s. split; [reflexivity|]. split; [reflexivity|exact (next_stuck s N)].
Qed.

(** ** Handlers that do not send *)
Lemma no_handler_send : forall tr s, piped tr s -> (forall g, ~ In (EHandler g) tr) -> forall f g, p_rloop s <> RSend f g.
Proof.
  apply (piped_ind (fun tr s => (forall g, ~ In (EHandler g) tr) -> forall f g, p_rloop s <> RSend f g)).
  - intros _ f g. discriminate.
  - intros tr a s s' _ IH D N f g. assert (IH' : forall f g, p_rloop s <> RSend f g) by (apply IH; intros g' X; apply (N g'), in_or_app; left; exact X). clear IH.
    assert (Na : forall g, a <> EHandler g) by (intros g' ->; apply (N g'), in_or_app; right; left; reflexivity). clear N.
    destruct s as [q r cl sl rl pe b cr l1 l2 l3 l4]. cbn [PipeModel.pstep] in D. destruct cr; [discriminate D|]. pflat.
    destruct a as [| | | | | | |n|fs|g0|g0|].
    + destruct sl as [|f0| |k|fs k|]; try discriminate D; destruct q as [|f' q]; try (destruct cl); try (destruct b); try discriminate D; injection D as <-; apply IH'.
    + destruct sl as [|f0| |k|fs k|]; try discriminate D. destruct (fits b f0); injection D as <-; apply IH'.
    + destruct sl as [|f0| |k|[|f0 fs] k|]; try discriminate D; [injection D as <-; apply IH'|]. destruct cl; [injection D as <-; apply IH'|]. destruct (length r <? cap); [|discriminate D]. injection D as <-. apply IH'.
    + destruct sl as [|f0| |[f0|]|fs k|]; try discriminate D; injection D as <-; apply IH'.
    + destruct rl as [|f0|f0 g0|]; try discriminate D. destruct r as [|f0 r]; [destruct cl; [|discriminate D]|]; injection D as <-; discriminate.
    + destruct rl as [|f0|f0 g0|]; try discriminate D. injection D as <-. discriminate.
    + destruct rl as [|f0|f0 g0|]; try discriminate D. contradiction (IH' f0 g0). reflexivity.
    + destruct (nth_error pe n); [|discriminate D]. destruct cl; [injection D as <-; apply IH'|]. destruct (length q <? cap); [|discriminate D]. injection D as <-. apply IH'.
    + destruct sl as [|f0| |k|fs0 k|]; try discriminate D. injection D as <-. apply IH'.
    + contradiction (Na g0). reflexivity.
    + injection D as <-. apply IH'.
    + destruct cl; injection D as <-; apply IH'.
Qed.

(** ** Closing *)
Lemma closed_step : forall s a s', p_closed s = true -> pstep s a = Some s' -> p_closed s' = true.
Proof.
  intros s a s' Cl D. destruct s as [q r cl sl rl pe b cr l1 l2 l3 l4]. cbn [PipeModel.pstep] in D. destruct cr; [discriminate D|]. pflat. subst cl.
  destruct a as [| | | | | | |n|fs|g0|g0|].
  - destruct sl as [|f0| |k|fs k|]; try discriminate D; destruct q as [|f' q]; injection D as <-; reflexivity.
  - destruct sl as [|f0| |k|fs k|]; try discriminate D. destruct (fits b f0); injection D as <-; reflexivity.
  - destruct sl as [|f0| |k|[|f0 fs] k|]; try discriminate D; injection D as <-; reflexivity.
  - destruct sl as [|f0| |[f0|]|fs k|]; try discriminate D; injection D as <-; reflexivity.
  - destruct rl as [|f0|f0 g0|]; try discriminate D. destruct r as [|f0 r]; injection D as <-; reflexivity.
  - destruct rl as [|f0|f0 g0|]; try discriminate D. injection D as <-. reflexivity.
  - destruct rl as [|f0|f0 g0|]; try discriminate D. injection D as <-. reflexivity.
  - destruct (nth_error pe n); [|discriminate D]. injection D as <-. reflexivity.
  - destruct sl as [|f0| |k|fs0 k|]; try discriminate D. injection D as <-. reflexivity.
  - destruct rl as [|f0|f0 g1|]; try discriminate D. injection D as <-. reflexivity.
  - injection D as <-. reflexivity.
  - injection D as <-. reflexivity.
Qed.

(** sendLoop crashes once it has got hold of a frame (or has one) after Close. *)
Lemma busy_step : forall s a s', p_closed s = true -> busy s -> pstep s a = Some s' -> p_crashed s' = true \/ busy s'.
Proof.
  intros s a s' Cl Bz D. destruct s as [q r cl sl rl pe b cr l1 l2 l3 l4]. cbn [PipeModel.pstep] in D. destruct cr; [discriminate D|]. unfold busy in *. pflat. subst cl.
  destruct a as [| | | | | | |n|fs|g0|g0|].
  - destruct sl as [|f0| |k|fs k|]; try discriminate D; destruct q as [|f' q]; injection D as <-; pflat.
    + destruct Bz as [X|[[f X]|[X|[[f X]|[fs [f X]]]]]]; try discriminate X. contradiction X. reflexivity.
    + right. right. left. exists f'. reflexivity.
    + left. reflexivity.
    + right. right. left. exists f'. reflexivity.
  - destruct sl as [|f0| |k|fs k|]; try discriminate D. destruct (fits b f0); injection D as <-; pflat; right; right; right; [left; reflexivity|right; left; exists f0; reflexivity].
  - destruct sl as [|f0| |k|[|f0 fs] k|]; try discriminate D; injection D as <-; pflat; [|left; reflexivity]. right. destruct Bz as [X|[[f X]|[X|[[f X]|[fs [f X]]]]]]; try discriminate X; [left; exact X|]. injection X as _ ->. right. right. right. left. exists f. reflexivity.
  - destruct sl as [|f0| |[f0|]|fs k|]; try discriminate D; injection D as <-; pflat; right.
    + right. right. left. reflexivity.
    + destruct Bz as [X|[[f X]|[X|[[f X]|[fs [f X]]]]]]; try discriminate X. left. exact X.
  - destruct rl as [|f0|f0 g0|]; try discriminate D. destruct r as [|f0 r]; injection D as <-; right; exact Bz.
  - destruct rl as [|f0|f0 g0|]; try discriminate D. injection D as <-. right. exact Bz.
  - destruct rl as [|f0|f0 g0|]; try discriminate D. injection D as <-. left. reflexivity.
  - destruct (nth_error pe n); [|discriminate D]. injection D as <-. left. reflexivity.
  - destruct sl as [|f0| |k|fs0 k|]; try discriminate D. injection D as <-. pflat. right. destruct Bz as [X|[[f X]|[X|[[f X]|[fs1 [f X]]]]]]; try discriminate X; [left; exact X|]. injection X as ->. right. right. right. right. exists fs, f. reflexivity.
  - destruct rl as [|f0|f0 g1|]; try discriminate D. injection D as <-. right. exact Bz.
  - injection D as <-. right. exact Bz.
  - injection D as <-. left. reflexivity.
Qed.
Lemma busy_not_stuck : forall s, p_closed s = true -> p_crashed s = false -> busy s -> p_sloop s <> SEnded -> exists a s', own a = true /\ pstep s a = Some s'.
Proof.
  intros s Cl Cr Bz N. destruct s as [q r cl sl rl pe b cr l1 l2 l3 l4]. unfold busy in Bz. pflat. subst cl cr. destruct sl as [|f0| |k|fs k|].
  - exists PLoop. cbn [PipeModel.pstep]. destruct q; eexists; split; reflexivity.
  - exists PWrite. cbn [PipeModel.pstep]. destruct (fits b f0); eexists; split; reflexivity.
  - exists PLoop. cbn [PipeModel.pstep]. destruct q; eexists; split; reflexivity.
  - exists PReturn. cbn [PipeModel.pstep]. destruct k; eexists; split; reflexivity.
  - exists PPush. cbn [PipeModel.pstep]. destruct fs; eexists; split; reflexivity.
  - contradiction N. reflexivity.
Qed.
Lemma busy_runs : forall l s s', p_closed s = true -> busy s -> pruns s l = Some s' -> p_crashed s' = true \/ (p_closed s' = true /\ busy s').
Proof.
  induction l as [|a l IH]; intros s s' Cl Bz R; cbn [PipeModel.pruns] in R; [assert (s = s') as <- by congruence; right; split; assumption|].
  destruct (pstep s a) as [s1|] eqn:D; [|discriminate R]. destruct (busy_step s a s1 Cl Bz D) as [Cr|B1].
  - destruct l as [|a' l]; [cbn in R; assert (s1 = s') as <- by congruence; left; exact Cr|]. cbn [PipeModel.pruns] in R. rewrite (crashed_none s1 a' Cr) in R. discriminate R.
  - exact (IH s1 s' (closed_step s a s1 Cl D) B1 R).
Qed.
Lemma quiet_own : forall s a s', p_closed s = true -> p_crashed s = false -> quiet s -> own a = true -> pstep s a = Some s' -> p_crashed s' = false /\ quiet s'.
Proof.
  intros s a s' Cl Cr (Nb & Pe & Rs & Hs) O D. destruct s as [q r cl sl rl pe b cr l1 l2 l3 l4]. unfold busy in *. pflat. subst cl cr pe. cbn [PipeModel.pstep] in D.
  assert (q = []) as -> by (destruct q; [reflexivity|contradiction Nb; left; discriminate]).
  unfold quiet, busy. destruct a as [| | | | | | |n|fs|g0|g0|]; try discriminate O.
  - destruct sl as [|f0| |k|fs k|]; try discriminate D; [|contradiction Nb; right; right; left; reflexivity]. injection D as <-. pflat. split; [reflexivity|]. split; [|split; [reflexivity|split; [exact Rs|discriminate]]].
    intros [X|[[f X]|[X|[[f X]|[fs [f X]]]]]]; try discriminate X. contradiction X. reflexivity.
  - destruct sl as [|f0| |k|fs k|]; try discriminate D. contradiction Nb. right. left. exists f0. reflexivity.
  - destruct sl as [|f0| |k|[|f0 fs] k|]; try discriminate D; [|contradiction (Hs f0 fs k); reflexivity]. injection D as <-. pflat. split; [reflexivity|]. split; [|split; [reflexivity|split; [exact Rs|discriminate]]].
    intros [X|[[f X]|[X|[[f X]|[fs [f X]]]]]]; try discriminate X; [contradiction X; reflexivity|]. injection X as ->. apply Nb. right. right. right. right. exists [], f. reflexivity.
  - destruct sl as [|f0| |[f0|]|fs k|]; try discriminate D; [contradiction Nb; right; right; right; left; exists f0; reflexivity|]. injection D as <-. pflat. split; [reflexivity|]. split; [|split; [reflexivity|split; [exact Rs|discriminate]]].
    intros [X|[[f X]|[X|[[f X]|[fs [f X]]]]]]; try discriminate X. contradiction X. reflexivity.
  - destruct rl as [|f0|f0 g0|]; try discriminate D. destruct r as [|f0 r]; injection D as <-; pflat; (split; [reflexivity|]; split; [exact Nb|split; [reflexivity|split; [discriminate|exact Hs]]]).
  - destruct rl as [|f0|f0 g0|]; try discriminate D. injection D as <-. pflat. split; [reflexivity|]. split; [exact Nb|split; [reflexivity|split; [discriminate|exact Hs]]].
  - destruct rl as [|f0|f0 g0|]; try discriminate D. contradiction (Rs f0 g0). reflexivity.
  - destruct n; discriminate D.
Qed.
Lemma quiet_back : forall s a s', p_closed s = true -> own a = true -> pstep s a = Some s' -> p_crashed s' = false -> quiet s' -> quiet s.
Proof.
  intros s a s' Cl O D Cr (Nb & Pe & Rs & Hs). destruct s as [q r cl sl rl pe b cr l1 l2 l3 l4]. pflat. subst cl. cbn [PipeModel.pstep] in D. destruct cr; [discriminate D|].
  unfold quiet, busy in *. destruct a as [| | | | | | |n|fs|g0|g0|]; try discriminate O; pflat.
  - destruct sl as [|f0| |k|fs k|]; try discriminate D; destruct q as [|f' q]; injection D as <-; pflat; try discriminate Cr; try (contradiction Nb; right; left; exists f'; reflexivity).
    split; [|split; [exact Pe|split; [exact Rs|discriminate]]]. intros [X|[[f X]|[X|[[f X]|[fs [f X]]]]]]; try discriminate X. contradiction X. reflexivity.
  - destruct sl as [|f0| |k|fs k|]; try discriminate D. destruct (fits b f0); injection D as <-; pflat; contradiction Nb; [right; right; left; reflexivity|right; right; right; left; exists f0; reflexivity].
  - destruct sl as [|f0| |k|[|f0 fs] k|]; try discriminate D; injection D as <-; pflat; [|discriminate Cr]. split; [|split; [exact Pe|split; [exact Rs|discriminate]]].
    intros [X|[[f X]|[X|[[f X]|[fs [f X]]]]]]; try discriminate X; apply Nb; [left; exact X|]. injection X as _ ->. right. right. right. left. exists f. reflexivity.
  - destruct sl as [|f0| |[f0|]|fs k|]; try discriminate D; injection D as <-; pflat; [contradiction Nb; right; right; left; reflexivity|]. split; [|split; [exact Pe|split; [exact Rs|discriminate]]].
    intros [X|[[f X]|[X|[[f X]|[fs [f X]]]]]]; try discriminate X. apply Nb. left. exact X.
  - destruct rl as [|f0|f0 g0|]; try discriminate D. destruct r as [|f0 r]; injection D as <-; pflat; (split; [exact Nb|split; [exact Pe|split; [discriminate|exact Hs]]]).
  - destruct rl as [|f0|f0 g0|]; try discriminate D. injection D as <-. pflat. split; [exact Nb|split; [exact Pe|split; [discriminate|exact Hs]]].
  - destruct rl as [|f0|f0 g0|]; try discriminate D. injection D as <-. discriminate Cr.
  - destruct (nth_error pe n); [|discriminate D]. injection D as <-. discriminate Cr.
Qed.
(** A closed instance that has come to its end. *)
Lemma stuck_closed : forall s, pinv s -> p_closed s = true -> p_crashed s = false -> stuck fits s -> quiet s /\ p_sloop s = SEnded /\ p_rloop s = REnded /\ p_given s = p_sent s /\ p_handled s = p_received s.
Proof.
  intros s I Cl Cr St. destruct s as [q r cl sl rl pe b cr l1 l2 l3 l4]. destruct I as [A B C D0 E G H J]. pflat. subst cl cr.
  assert (sl = SEnded) as ->.
  { destruct sl as [|f0| |k|fs k|]; [specialize (St PLoop eq_refl)|specialize (St PWrite eq_refl)|specialize (St PLoop eq_refl)|specialize (St PReturn eq_refl)|specialize (St PPush eq_refl)|reflexivity]; exfalso; cbn [PipeModel.pstep] in St.
    - destruct q; discriminate St.
    - destruct (fits b f0); discriminate St.
    - destruct q; discriminate St.
    - destruct k; discriminate St.
    - destruct fs; discriminate St. }
  assert (rl = REnded) as ->.
  { destruct rl as [|f0|f0 g0|]; [specialize (St PRecv eq_refl)|specialize (St PHandled eq_refl)|specialize (St PHandlerSend eq_refl)|reflexivity]; exfalso; cbn [PipeModel.pstep] in St; [destruct r|..]; discriminate St. }
  destruct (H eq_refl) as [_ ->]. destruct (J eq_refl) as [_ ->]. assert (b = []) as -> by (apply E; reflexivity). cbn [app in_hand] in A. rewrite app_nil_r in A, B.
  assert (pe = []) as -> by (destruct pe as [|g pe]; [reflexivity|]; specialize (St (PSender 0) eq_refl); discriminate St).
  split; [|repeat split; congruence]. split; [|split; [reflexivity|split; discriminate]]. intros [X|[[f X]|[X|[[f X]|[fs [f X]]]]]]; try discriminate X. contradiction X. reflexivity.
Qed.
Lemma own_closed : forall l s s', p_closed s = true -> forallb own l = true -> pruns s l = Some s' -> p_crashed s = false -> (quiet s -> p_crashed s' = false /\ quiet s') /\ (p_crashed s' = false -> quiet s' -> quiet s).
Proof.
  induction l as [|a l IH]; intros s s' Cl O R Cr; cbn [forallb PipeModel.pruns] in *; [assert (s = s') as <- by congruence; tauto|].
  apply andb_prop in O as [Oa O]. destruct (pstep s a) as [s1|] eqn:D; [|discriminate R]. destruct (p_crashed s1) eqn:Cr1.
  - destruct l as [|a' l]; [cbn in R; assert (s1 = s') as <- by congruence|cbn [PipeModel.pruns] in R; rewrite (crashed_none s1 a' Cr1) in R; discriminate R].
    split; [intro Q; destruct (quiet_own s a s1 Cl Cr Q Oa D) as [X _]; congruence|congruence].
  - destruct (IH s1 s' (closed_step s a s1 Cl D) O R Cr1) as [A B]. split.
    + intro Q. apply A. exact (proj2 (quiet_own s a s1 Cl Cr Q Oa D)).
    + intros C Q. exact (quiet_back s a s1 Cl Oa D Cr1 (B C Q)).
Qed.
Lemma closed_runs : forall l s s', p_closed s = true -> pruns s l = Some s' -> p_closed s' = true.
Proof.
  induction l as [|a l IH]; intros s s' Cl R; cbn [PipeModel.pruns] in R; [congruence|]. destruct (pstep s a) as [s1|] eqn:D; [|discriminate R]. exact (IH s1 s' (closed_step s a s1 Cl D) R).
Qed.
Lemma pinv_runs : forall l s s', pinv s -> pruns s l = Some s' -> pinv s'.
Proof.
  induction l as [|a l IH]; intros s s' I R; cbn [PipeModel.pruns] in R; [congruence|]. destruct (pstep s a) as [s1|] eqn:D; [|discriminate R]. exact (IH s1 s' (pinv_step s a s1 I D) R).
Qed.
(** While it is open nothing crashes and only EClose closes. *)
Lemma open_step : forall s a s', p_closed s = false -> pstep s a = Some s' -> a <> EClose -> p_closed s' = false /\ p_crashed s' = false.
Proof.
  intros s a s' Cl D N. destruct s as [q r cl sl rl pe b cr l1 l2 l3 l4]. cbn [PipeModel.pstep] in D. destruct cr; [discriminate D|]. pflat. subst cl.
  destruct a as [| | | | | | |n|fs|g0|g0|].
  - destruct sl as [|f0| |k|fs k|]; try discriminate D; destruct q as [|f' q]; try (destruct b); try discriminate D; injection D as <-; split; reflexivity.
  - destruct sl as [|f0| |k|fs k|]; try discriminate D. destruct (fits b f0); injection D as <-; split; reflexivity.
  - destruct sl as [|f0| |k|[|f0 fs] k|]; try discriminate D; try (destruct (length r <? cap)); try discriminate D; injection D as <-; split; reflexivity.
  - destruct sl as [|f0| |[f0|]|fs k|]; try discriminate D; injection D as <-; split; reflexivity.
  - destruct rl as [|f0|f0 g0|]; try discriminate D. destruct r as [|f0 r]; try discriminate D; injection D as <-; split; reflexivity.
  - destruct rl as [|f0|f0 g0|]; try discriminate D. injection D as <-. split; reflexivity.
  - destruct rl as [|f0|f0 g0|]; try discriminate D. destruct (length q <? cap); [|discriminate D]. injection D as <-. split; reflexivity.
  - destruct (nth_error pe n); [|discriminate D]. destruct (length q <? cap); [|discriminate D]. injection D as <-. split; reflexivity.
  - destruct sl as [|f0| |k|fs0 k|]; try discriminate D. injection D as <-. split; reflexivity.
  - destruct rl as [|f0|f0 g1|]; try discriminate D. injection D as <-. split; reflexivity.
  - injection D as <-. split; reflexivity.
  - contradiction N. reflexivity.
Qed.
Lemma open_runs : forall l s s', p_closed s = false -> p_crashed s = false -> ~ In EClose l -> pruns s l = Some s' -> p_closed s' = false /\ p_crashed s' = false.
Proof.
  induction l as [|a l IH]; intros s s' Cl Cr N R; cbn [PipeModel.pruns] in R; [assert (s = s') as <- by congruence; split; assumption|]. destruct (pstep s a) as [s1|] eqn:D; [|discriminate R].
  destruct (open_step s a s1 Cl D) as [C1 C2]; [intros ->; apply N; left; reflexivity|]. apply (IH s1 s' C1 C2); [intro X; apply N; right; exact X|exact R].
Qed.
Lemma own_no_close : forall l : list (paction F), forallb own l = true -> ~ In EClose l.
Proof. intros l O X. rewrite forallb_forall in O. specialize (O _ X). discriminate O. Qed.
Lemma own_no_handler : forall (l : list (paction F)) g, forallb own l = true -> ~ In (EHandler g) l.
Proof. intros l g O X. rewrite forallb_forall in O. specialize (O _ X). discriminate O. Qed.
Lemma deadlock_runs : forall l s s', p_closed s = false -> deadlocked s -> ~ In EClose l -> pruns s l = Some s' -> deadlocked s' /\ (forall a, In a l -> exists g, a = EUser g).
Proof.
  induction l as [|a l IH]; intros s s' Cl Dl N R; cbn [PipeModel.pruns] in R; [assert (s = s') as <- by congruence; split; [exact Dl|intros a []]|]. destruct (pstep s a) as [s1|] eqn:D; [|discriminate R].
  destruct (deadlock_step s a s1 Cl Dl D) as [(Eu & Dl1 & Cl1)| ->]; [|contradiction N; left; reflexivity]. destruct (IH s1 s' Cl1 Dl1) as [A B]; [intro X; apply N; right; exact X|exact R|]. split; [exact A|].
  intros a' [<-|X]; [exact Eu|exact (B a' X)].
Qed.
End Proofs.
