(** Proofs about flows and their sinks. *)
From Coq Require Import List Arith Bool Lia.
From Verif Require Import FlowModel FlowSpec FlowProofs FlowSinkModel FlowSinkSpec.
Import ListNotations.

Section Proofs.
Context {T E : Type}.
Context (N : nat) (mono : bool).
Notation xcall := (xcall (T := T) (E := E)).
Notation xseen := (xseen (T := T) (E := E)).
Notation xitem := (xitem (T := T) (E := E)).
Notation xevent := (xevent (T := T) (E := E)).
Notation xreach := (xreach (T := T) (E := E) N mono).
Notation owed := (owed (T := T) (E := E)).

(** ** What is seen *)
Definition closes (c : xcall) : bool := match c with XNext _ => false | _ => true end.

Lemma owed_open : forall a b, existsb closes a = false -> owed (a ++ b) = owed a ++ owed b.
Proof.
  induction a as [|c a IH]; intros b H; [reflexivity|]. cbn [existsb] in H. apply orb_false_iff in H as [H1 H2].
  destruct c; try discriminate H1. cbn [owed app]. rewrite (IH b H2). reflexivity.
Qed.
Lemma owed_closed : forall a b, existsb closes a = true -> owed (a ++ b) = owed a.
Proof.
  induction a as [|c a IH]; intros b H; [discriminate H|]. cbn [existsb] in H. destruct c; try reflexivity.
  cbn [owed app]. rewrite (IH b H). reflexivity.
Qed.

Definition results (os : list xseen) : list xseen := filter is_result os.
Definition pend (stack : list xitem) : list xseen := flat_map (fun i => match i with XEmit o => if is_result o then [o] else [] | _ => [] end) stack.

Lemma saw_app : forall a b : list xevent, saw (a ++ b) = saw a ++ saw b.
Proof. intros. unfold saw. apply flat_map_app. Qed.
Lemma reports_app : forall a b : list xevent, reports (a ++ b) = reports a ++ reports b.
Proof. intros. unfold reports. apply flat_map_app. Qed.
Lemma pend_app : forall a b, pend (a ++ b) = pend a ++ pend b.
Proof. intros. unfold pend. apply flat_map_app. Qed.
Lemma pend_emits : forall os, pend (map XEmit os) = results os.
Proof.
  induction os as [|o os IH]; [reflexivity|]. cbn [map]. unfold pend in *. cbn [flat_map]. unfold results in *. cbn [filter].
  rewrite IH. destruct (is_result o); reflexivity.
Qed.
Lemma pend_items : forall its, pend (map XI its) = [].
Proof. induction its as [|i its IH]; [reflexivity|]. exact IH. Qed.
Lemma pend_tl : forall l, pend l = [] -> pend (tl l) = [].
Proof. intros [|i l] H; [reflexivity|]. cbn [tl]. unfold pend in *. cbn [flat_map] in H. apply app_eq_nil in H. apply H. Qed.
Lemma saw_flow : forall evs, saw (map (XF (T := T) (E := E)) evs) = [].
Proof. induction evs as [|e evs IH]; [reflexivity|]. exact IH. Qed.
Lemma reports_flow : forall evs, reports (map (XF (T := T) (E := E)) evs) = [].
Proof. induction evs as [|e evs IH]; [reflexivity|]. exact IH. Qed.

(** What a call does, in terms of what it owes. *)
Lemma effect_owed : forall cl c cl' os, effect mono cl c = Some (cl', os) ->
  cl' = cl || closes c /\ results os = (if cl then [] else owed [c]) /\ results (tl os) = [].
Proof. intros cl c cl' os H. unfold effect in H. destruct mono, c, cl; cbn in H; try discriminate H; injection H as <- <-; auto. Qed.

Definition inv (cl : bool) (stack : list xitem) (tr : list xevent) : Prop :=
  saw tr ++ pend stack = owed (reports tr) /\ pend (tl stack) = [] /\ cl = existsb closes (reports tr).

Lemma user_pend : forall u stack, is_user (T := T) (E := E) u = true -> pend (u :: stack) = pend stack.
Proof. intros u stack H. destruct u; try discriminate H; reflexivity. Qed.

Lemma report_inv : forall tr cl cl' c os stack e, saw tr ++ [] = owed (reports tr) -> cl = existsb closes (reports tr) -> pend stack = [] ->
  effect mono cl c = Some (cl', os) -> saw [e] = [] -> reports [e] = [c] -> inv cl' (map XEmit os ++ stack) (tr ++ [e]).
Proof.
  intros tr cl cl' c os stack e H1 H3 H2 H Se Re. apply effect_owed in H as (-> & Ro & Rt). subst cl. unfold inv. rewrite saw_app, reports_app, Se, Re, pend_app, pend_emits, H2, !app_nil_r, Ro.
  rewrite app_nil_r in H1. split; [|split].
  - destruct (existsb closes (reports tr)) eqn:X; [rewrite (owed_closed _ _ X), app_nil_r; exact H1|rewrite (owed_open _ _ X), H1; reflexivity].
  - destruct os as [|o os]; cbn [map app tl]; [apply pend_tl; exact H2|]. cbn [tl] in Rt. rewrite pend_app, pend_emits, H2, Rt. reflexivity.
  - rewrite existsb_app. cbn [existsb]. rewrite orb_false_r. reflexivity.
Qed.

Lemma xreach_inv : forall s cl stack tr, xreach s cl stack tr -> inv cl stack tr.
Proof.
  intros s cl stack tr H. induction H as [|s cl u stack tr c U H IH|p c l e q n cl u stack tr U H IH|p c l e q1 r q2 n cl u stack tr U H IH|s cl u stack tr U Ns H IH|s cl r stack tr e cl' os H IH Ef|s cl stack tr H IH|s cl it stack tr s' its evs H IH St Ne|s cl c stack tr cl' os H IH Ef|s cl c stack tr H IH Ef|s cl o stack tr H IH].
  - repeat split; reflexivity.
  - destruct IH as (I1 & I2 & I3). unfold inv in *. cbn [tl] in *. split; [exact I1|]. split; [rewrite (user_pend _ _ U); exact I2|exact I3].
  - destruct IH as (I1 & I2 & I3). unfold inv. rewrite saw_app, reports_app. cbn [saw reports flat_map]. rewrite !app_nil_r. auto.
  - destruct IH as (I1 & I2 & I3). unfold inv. rewrite saw_app, reports_app. cbn [saw reports flat_map]. rewrite !app_nil_r. cbn [tl] in *.
    split; [exact I1|]. split; [rewrite (user_pend _ _ U); exact I2|exact I3].
  - destruct IH as (I1 & I2 & I3). cbn [tl] in I2. rewrite (user_pend _ _ U) in I1. split; [exact I1|]. split; [apply pend_tl; exact I2|exact I3].
  - destruct IH as (I1 & I2 & I3). cbn [tl] in I2. eapply report_inv; try eassumption; try reflexivity.
    rewrite <- I1. f_equal. symmetry. exact I2.
  - destruct IH as (I1 & I2 & I3). cbn [tl] in I2. split; [exact I1|]. split; [apply pend_tl; exact I2|exact I3].
  - destruct IH as (I1 & I2 & I3). cbn [tl] in I2. change (pend (XI it :: stack)) with (pend stack) in I1.
    unfold inv. rewrite saw_app, reports_app, saw_flow, reports_flow, !app_nil_r, pend_app, pend_items. cbn [app]. split; [exact I1|]. split; [|exact I3].
    destruct its as [|i its]; cbn [map app tl]; [apply pend_tl; exact I2|]. rewrite pend_app, pend_items. exact I2.
  - destruct IH as (I1 & I2 & I3). cbn [tl] in I2. eapply report_inv; try eassumption; try reflexivity.
    rewrite <- I1. f_equal. symmetry. exact I2.
  - destruct IH as (I1 & I2 & I3). cbn [tl] in I2. unfold inv. rewrite saw_app, reports_app. cbn [saw reports flat_map]. rewrite !app_nil_r.
    split; [exact I1|]. split; [apply pend_tl; exact I2|exact I3].
  - destruct IH as (I1 & I2 & I3). cbn [tl] in I2. unfold inv. rewrite saw_app, reports_app. cbn [tl].
    change (pend (XCb :: stack)) with (pend stack). rewrite I2. change (reports [XSee (T := T) (E := E) o]) with (@nil xcall). rewrite !app_nil_r.
    split; [|split; [reflexivity|exact I3]]. rewrite <- I1. unfold pend. cbn [flat_map]. fold (pend stack). rewrite I2, app_nil_r. f_equal. cbn. rewrite app_nil_r. reflexivity.
Qed.

(** ** The flow inside *)
Definition erase (stack : list xitem) : list witem := flat_map (fun i => match i with XI it => [it] | XBack => [WUser] | _ => [] end) stack.
(** Whatever a subscriber does is done by the user code, or the call of flow.go:97 or 99, underneath. *)
Fixpoint based (stack : list xitem) : Prop :=
  match stack with
  | [] => True
  | (XI _ | XBack) :: stack' => based stack'
  | _ :: stack' => (exists w, erase stack' = WUser :: w) /\ based stack'
  end.
Definition bottom (stack : list xitem) : Prop := exists pre, stack = pre ++ [XI WUser].

Lemma flow_app : forall a b : list xevent, flow_part (a ++ b) = flow_part a ++ flow_part b.
Proof. intros. unfold flow_part. apply flat_map_app. Qed.
Lemma flow_map : forall evs, flow_part (map (XF (T := T) (E := E)) evs) = evs.
Proof. induction evs as [|e evs IH]; [reflexivity|]. cbn. f_equal. exact IH. Qed.
Lemma erase_app : forall a b, erase (a ++ b) = erase a ++ erase b.
Proof. intros. unfold erase. apply flat_map_app. Qed.
Lemma erase_items : forall its, erase (map XI its) = its.
Proof. induction its as [|i its IH]; [reflexivity|]. cbn. f_equal. exact IH. Qed.
Lemma erase_emits : forall os, erase (map XEmit os) = [].
Proof. induction os as [|o os IH]; [reflexivity|]. exact IH. Qed.

Lemma based_items : forall its stack, based stack -> based (map XI its ++ stack).
Proof. induction its as [|i its IH]; intros stack H; [exact H|]. cbn. apply IH. exact H. Qed.
Lemma based_emits : forall os stack, based stack -> (exists w, erase stack = WUser :: w) -> based (map XEmit os ++ stack).
Proof.
  induction os as [|o os IH]; intros stack H W; [exact H|]. cbn [map app based]. split; [|apply IH; assumption].
  rewrite erase_app, erase_emits. exact W.
Qed.
Lemma user_base : forall u stack, is_user (T := T) (E := E) u = true -> based (u :: stack) -> exists w, erase (u :: stack) = WUser :: w.
Proof. intros u stack U B. destruct u as [[]|?|?| |]; try discriminate U; [exists (erase stack); reflexivity|]. destruct B as [W _]. exact W. Qed.
Lemma based_tl : forall i stack, based (i :: stack) -> based stack.
Proof. intros i stack B. destruct i; cbn in B; tauto. Qed.
Lemma bottom_cons : forall i stack, bottom stack -> bottom (i :: stack).
Proof. intros i stack [pre ->]. exists (i :: pre). reflexivity. Qed.
Lemma bottom_app : forall a stack, bottom stack -> bottom (a ++ stack).
Proof. intros a stack [pre ->]. exists (a ++ pre). apply app_assoc. Qed.
Lemma bottom_tl : forall i stack, bottom (i :: stack) -> stack <> [] -> bottom stack.
Proof. intros i stack [[|x pre] H] Ns; cbn in H; injection H as -> H; [contradiction (Ns H)|]. exists pre. exact H. Qed.
Lemma bottom_other : forall i stack, bottom (i :: stack) -> i <> XI WUser -> bottom stack.
Proof. intros i stack [[|x pre] H] Ni; cbn in H; injection H as -> H; [contradiction (Ni eq_refl)|]. exists pre. exact H. Qed.
Lemma bottom_erase : forall stack, bottom stack -> erase stack <> [].
Proof. intros stack [pre ->] H. rewrite erase_app in H. apply app_eq_nil in H as [_ H]. discriminate H. Qed.

Definition finv s (stack : list xitem) (tr : list xevent) : Prop := wreach N s (erase stack) (flow_part tr) /\ based stack /\ bottom stack.

Lemma xreach_finv : forall s cl stack tr, xreach s cl stack tr -> finv s stack tr.
Proof.
  intros s cl stack tr H. induction H as [|s cl u stack tr c U H IH|p c l e q n cl u stack tr U H IH|p c l e q1 r q2 n cl u stack tr U H IH|s cl u stack tr U Ns H IH|s cl r stack tr e cl' os H IH Ef|s cl stack tr H IH|s cl it stack tr s' its evs H IH St Ne|s cl c stack tr cl' os H IH Ef|s cl c stack tr H IH Ef|s cl o stack tr H IH].
  - split; [apply w_init|]. split; [cbn; auto|]. exists [XI WNext]. reflexivity.
  - destruct IH as (R & B & Bo). split; [exact R|]. split; [|apply bottom_cons; exact Bo]. cbn [based]. split; [exact (user_base _ _ U B)|exact B].
  - destruct IH as (R & B & Bo). destruct (user_base _ _ U B) as [w W]. unfold finv. rewrite flow_app, W in *. split; [|auto]. apply w_end with e. exact R.
  - destruct IH as (R & B & Bo). destruct (user_base _ _ U B) as [w W]. unfold finv. rewrite flow_app. change (erase (XI WCheck :: u :: stack)) with (WCheck :: erase (u :: stack)).
    rewrite W in *. split; [apply w_done; exact R|]. split; [exact B|apply bottom_cons; exact Bo].
  - destruct IH as (R & B & Bo). assert (Bs := based_tl _ _ B). assert (Bt := bottom_tl _ _ Bo Ns). split; [|auto].
    destruct u as [[]|?|?| |]; try discriminate U; [|exact R]. apply (w_return N s (erase stack)); [exact R|]. apply bottom_erase. exact Bt.
  - destruct IH as (R & B & Bo). assert (Bs := based_tl _ _ B). assert (Bt : bottom stack) by (eapply bottom_other; [exact Bo|discriminate]).
    unfold finv. rewrite flow_app, erase_app, erase_emits. split; [|split].
    + apply (w_item N s (WStep r) (erase stack) (flow_part tr) s [WUser] [WErr r]); [exact R|constructor].
    + apply based_emits; [exact Bs|]. exists (erase stack). reflexivity.
    + apply bottom_app, bottom_cons, Bt.
  - destruct IH as (R & B & Bo). assert (Bt : bottom stack) by (eapply bottom_other; [exact Bo|discriminate]).
    split; [|split; [exact B|exact Bt]]. apply (w_return N s (erase stack)); [exact R|]. apply bottom_erase. exact Bt.
  - destruct IH as (R & B & Bo). assert (Bt : bottom stack) by (eapply bottom_other; [exact Bo|intro Q; injection Q as ->; inversion St]).
    unfold finv. rewrite flow_app, flow_map, erase_app, erase_items. split; [|split].
    + apply (w_item N s it (erase stack) (flow_part tr) s' its evs); [exact R|exact St].
    + apply based_items. exact B.
    + apply bottom_app. exact Bt.
  - destruct IH as (R & [W B] & Bo). assert (Bt : bottom stack) by (eapply bottom_other; [exact Bo|discriminate]).
    unfold finv. rewrite flow_app, erase_app, erase_emits. cbn [flow_part flat_map app]. rewrite app_nil_r. split; [exact R|]. split; [|apply bottom_app; exact Bt].
    apply based_emits; assumption.
  - destruct IH as (R & [W B] & Bo). assert (Bt : bottom stack) by (eapply bottom_other; [exact Bo|discriminate]).
    unfold finv. rewrite flow_app. cbn [flow_part flat_map app]. rewrite app_nil_r. auto.
  - destruct IH as (R & B & Bo). assert (Bt : bottom stack) by (eapply bottom_other; [exact Bo|discriminate]).
    unfold finv. rewrite flow_app. cbn [flow_part flat_map app]. rewrite app_nil_r. split; [exact R|]. split; [exact B|apply bottom_cons; exact Bt].
Qed.

(** ** Panics *)
Lemma effect_misused : forall cl (c : xcall), effect mono cl c = None <-> misused mono c = true.
Proof. intros cl c. unfold effect. destruct mono, c, cl; cbn; split; intro H; try discriminate H; reflexivity. Qed.
Lemma xreach_panics : forall s cl stack tr, xreach s cl stack tr ->
  Forall (fun e => match e with XPanic c => misused mono c = true | XCalled c => misused mono c = false | _ => True end) tr.
Proof.
  intros s cl stack tr H. induction H; try exact IHxreach; try (apply Forall_app; split; [exact IHxreach|]); try (repeat constructor; fail).
  - apply Forall_forall. intros x I. apply in_map_iff in I as (w & <- & _). exact I.
  - constructor; [|constructor]. destruct (misused mono c) eqn:Q; [|reflexivity]. apply (effect_misused cl) in Q. congruence.
  - constructor; [|constructor]. apply (effect_misused cl). assumption.
Qed.
End Proofs.

(** ** A runner for examples *)
Section Runner.
Context {T E : Type}.
Context (N : nat) (mono : bool).
(** One step of flow.go, user code saying something or coming back, an error returned, a callback run, End or an awaitable. *)
Inductive xcmd := XDo (c : cmd) | XSay (c : xcall (T := T) (E := E)) | XRet | XGo | XErr (e : E) | XDone (r : nat).
Definition inner (c : cmd) : bool := match c with CStep _ | CNow | CLater | CGo => true | _ => false end.
Lemma inner_step : forall s it c s' its evs, inner c = true -> wexec1 N (s, [it], []) c = Some (s', its, evs) -> wstep N s it s' its evs /\ (forall r, ~ In (WErr r) evs).
Proof.
  intros [p cc l e q n] it c s' its evs I H. cbn [wexec1] in H. split.
  - destruct c; try discriminate I; destruct it as [| |r0|r0 [|j0]|r0|]; try discriminate H.
    + destruct e; [discriminate H|]. injection H as <- <- <-. constructor.
    + injection H as <- <- <-. constructor.
    + injection H as <- <- <-. constructor.
    + destruct (Nat.leb_spec N p); injection H as <- <- <-; constructor; assumption.
    + destruct e; [|discriminate H]. injection H as <- <- <-. constructor.
    + destruct (Nat.ltb_spec p N); [|discriminate H]. injection H as <- <- <-. constructor. assumption.
    + injection H as <- <- <-. constructor.
    + injection H as <- <- <-. rewrite app_nil_r. apply w_check.
  - intros r X. destruct c; try discriminate I; destruct it as [| |r0|r0 [|j0]|r0|]; try discriminate H;
      try destruct (N <=? p); try destruct e; try destruct (p <? N); try discriminate H; injection H as <- <- <-; cbn in X; intuition discriminate.
Qed.
Definition xexec1 (x : wst * bool * list (xitem (T := T) (E := E)) * list (xevent (T := T) (E := E))) (c : xcmd) :=
  let '(s, cl, stack, tr) := x in
  match c, stack with
  | XDo k, XI it :: st => if inner k then match wexec1 N (s, [it], []) k with Some (s', its, evs) => Some (s', cl, map XI its ++ st, tr ++ map XF evs) | None => None end else None
  | XSay k, u :: st => if is_user u then Some (s, cl, XCall k :: u :: st, tr) else None
  | XRet, u :: i :: st => if is_user u then Some (s, cl, i :: st, tr) else None
  | XGo, XCall k :: st => match effect mono cl k with Some (cl', os) => Some (s, cl', map XEmit os ++ st, tr ++ [XCalled k]) | None => Some (s, cl, st, tr ++ [XPanic k]) end
  | XGo, XEmit o :: st => Some (s, cl, XCb :: st, tr ++ [XSee o])
  | XGo, XBack :: st => Some (s, cl, st, tr)
  | XErr e, XI (WStep r) :: st => match effect mono cl (XError e) with Some (cl', os) => Some (s, cl', map XEmit os ++ XBack :: st, tr ++ [XReturned r e]) | None => None end
  | XDone r, u :: st =>
    if is_user u
    then let 'mkW p cc l e q n := s in match remove1 r q with Some q' => Some (mkW p cc l e q' n, cl, XI WCheck :: u :: st, tr ++ [XF (WDone r)]) | None => None end
    else None
  | _, _ => None
  end.
Fixpoint xexec x (cs : list xcmd) := match cs with [] => Some x | c :: cs' => match xexec1 x c with Some x' => xexec x' cs' | None => None end end.
Definition at_x (x : wst * bool * list (xitem (T := T) (E := E)) * list (xevent (T := T) (E := E))) : Prop := let '(s, cl, stack, tr) := x in xreach N mono s cl stack tr.
Lemma xexec1_sound : forall x c x', at_x x -> xexec1 x c = Some x' -> at_x x'.
Proof.
  intros [[[s cl] stack] tr] c x' R H. cbn [at_x] in R. cbn [xexec1] in H.
  destruct c as [k|k| | |e|r]; destruct stack as [|u st]; try discriminate H.
  - destruct u as [it|?|?| |]; try discriminate H. destruct (inner k) eqn:I; [|discriminate H]. destruct (wexec1 N (s, [it], []) k) as [[[s' its] evs]|] eqn:W; [|discriminate H].
    injection H as <-. destruct (inner_step _ _ _ _ _ _ I W) as [S X]. exact (x_item N mono _ _ _ _ _ _ _ _ R S X).
  - destruct (is_user u) eqn:U; [|discriminate H]. injection H as <-. apply x_call; assumption.
  - destruct st as [|i st]; [discriminate H|]. destruct (is_user u) eqn:U; [|discriminate H]. injection H as <-. apply (x_return N mono s cl u); [exact U|discriminate|exact R].
  - destruct u as [it|k|o| |]; try discriminate H.
    + destruct (effect mono cl k) as [[cl' os]|] eqn:Q; injection H as <-; [exact (x_effect N mono _ _ _ _ _ _ _ R Q)|exact (x_panic N mono _ _ _ _ _ R Q)].
    + injection H as <-. apply x_emit. exact R.
    + injection H as <-. apply x_back. exact R.
  - destruct u as [[]|k|o| |]; try discriminate H. destruct (effect mono cl (XError e)) as [[cl' os]|] eqn:Q; [|discriminate H]. injection H as <-. exact (x_error N mono _ _ _ _ _ _ _ _ R Q).
  - destruct (is_user u) eqn:U; [|discriminate H]. destruct s as [p cc l e q n]. destruct (remove1 r q) as [q'|] eqn:Q; [|discriminate H]. injection H as <-.
    apply remove1_split in Q as (a & b & -> & ->). apply x_done; assumption.
Qed.
Lemma xexec_sound : forall cs x x', at_x x -> xexec x cs = Some x' -> at_x x'.
Proof.
  induction cs as [|c cs IH]; intros x x' R H; cbn [xexec] in H; [injection H as <-; exact R|].
  destruct (xexec1 x c) as [y|] eqn:Q; [|discriminate H]. exact (IH y x' (xexec1_sound _ _ _ R Q) H).
Qed.
Definition x_start : wst * bool * list (xitem (T := T) (E := E)) * list (xevent (T := T) (E := E)) := (mkW 0 0 0 false [] 0, false, [XI WNext; XI WUser], []).
Lemma x_run : forall cs s cl stack tr, xexec x_start cs = Some (s, cl, stack, tr) -> xreach N mono s cl stack tr.
Proof. intros cs s cl stack tr H. exact (xexec_sound cs x_start (s, cl, stack, tr) (x_init N mono) H). Qed.
End Runner.
