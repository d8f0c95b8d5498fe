(** C72: what the subscriber of a flow gets. *)
From Coq Require Import List Arith Bool Lia.
From Verif Require Import FlowModel FlowSpec FlowProofs FlowSinkModel FlowSinkSpec FlowSinkProofs.
Import ListNotations.

(** Whatever steps, awaitables and callbacks do: the subscriber has seen what the reports so far owe it, whenever user code
    runs; at any other time it may be one callback behind. *)
Theorem C72_seen : forall T E N mono s cl u stack tr, @xreach T E N mono s cl (u :: stack) tr -> is_user u = true ->
  saw tr = owed (reports tr).
Proof.
  intros T E N mono s cl u stack tr R U. destruct (xreach_inv N mono _ _ _ _ R) as (H & P & _). cbn [tl] in P. rewrite (user_pend _ _ U), P, app_nil_r in H. exact H.
Qed.
Print Assumptions C72_seen.

Theorem C72_behind : forall T E N mono s cl stack tr, @xreach T E N mono s cl stack tr ->
  exists rest, saw tr ++ rest = owed (reports tr) /\ length rest <= 1.
Proof.
  intros T E N mono s cl stack tr R. destruct (xreach_inv N mono _ _ _ _ R) as (H & P & _). exists (pend stack). split; [exact H|].
  destruct stack as [|i stack]; [cbn; lia|]. cbn [tl] in P. unfold pend in *. cbn [flat_map]. rewrite P, app_nil_r. destruct i as [?|?|o| |]; cbn; try lia. destruct (is_result o); cbn; lia.
Qed.
Print Assumptions C72_behind.

(** A mono gets the first of what its flow's user code reports and its steps return, and nothing else. *)
Theorem C72_mono : forall T E N s cl u stack tr, @xreach T E N true s cl (u :: stack) tr -> is_user u = true ->
  saw tr = match reports tr with XSuccess v :: _ => [OSuccess v] | XError e :: _ => [OError e] | _ => [] end.
Proof.
  intros T E N s cl u stack tr R U. rewrite (C72_seen _ _ _ _ _ _ _ _ _ R U). assert (P := xreach_panics N true _ _ _ _ R).
  destruct (reports tr) as [|c l] eqn:Q; [reflexivity|]. destruct c as [v|v| |e|]; try reflexivity; exfalso; clear R;
    induction tr as [|ev tr IH]; try discriminate Q; apply Forall_cons_iff in P as [P1 P2]; destruct ev; cbn in Q; try (apply IH; assumption); try discriminate Q; injection Q as -> _; discriminate P1.
Qed.
Print Assumptions C72_mono.

(** An error returned by a step is seen, after the items before it and as the last thing, unless something ended the
    subscription before. *)
Theorem C72_error : forall T E N mono s cl u stack a r e b, @xreach T E N mono s cl (u :: stack) (a ++ XReturned r e :: b) -> is_user u = true ->
  (forall c, In c (reports a) -> exists v, c = XNext v) -> saw (a ++ XReturned r e :: b) = owed (reports a) ++ [OError e].
Proof.
  intros T E N mono s cl u stack a r e b R U H. rewrite (C72_seen _ _ _ _ _ _ _ _ _ R U), reports_app. change (reports (XReturned r e :: b)) with ((XError e : xcall (T := T)) :: reports b).
  rewrite owed_open; [reflexivity|]. apply not_true_is_false. intro X. apply existsb_exists in X as (c & I & X). destruct (H c I) as [v ->]. discriminate X.
Qed.
Print Assumptions C72_error.

(** Success panics for a flux, Next and Complete panic for a mono, and no other call does. *)
Theorem C72_panics : forall T E N mono s cl stack tr c, @xreach T E N mono s cl stack tr ->
  (In (XPanic c) tr -> misused mono c = true) /\ (In (XCalled c) tr -> misused mono c = false).
Proof.
  intros T E N mono s cl stack tr c R. assert (P := xreach_panics N mono _ _ _ _ R). rewrite Forall_forall in P. split; intro I; exact (P _ I).
Qed.
Print Assumptions C72_panics.

(** C31 holds whatever the subscriber's callbacks do. *)
Theorem C72_steps : forall T E N mono s cl stack tr, @xreach T E N mono s cl stack tr -> unhurried (flow_part tr) ->
  (exists n, n <= N /\ runs (flow_part tr) = seq 0 n) /\ waited (flow_part tr) /\ stops (flow_part tr).
Proof.
  intros T E N mono s cl stack tr R U. destruct (xreach_finv N mono _ _ _ _ R) as (W & _ & _).
  split; [exact (order_proof _ _ _ _ W U)|]. split; [exact (waited_proof _ _ _ _ W U)|exact (stops_proof _ _ _ _ W U)].
Qed.
Print Assumptions C72_steps.

(** With nothing left to do and everything awaited done, all steps have run. *)
Theorem C72_rest : forall T E N mono s cl tr, @xreach T E N mono s cl [XI WUser] tr -> unhurried (flow_part tr) -> fulfilled (flow_part tr) ->
  runs (flow_part tr) = seq 0 N.
Proof.
  intros T E N mono s cl tr R U F. destruct (xreach_finv N mono _ _ _ _ R) as (W & _ & _). exact (progress_proof _ _ _ W U F).
Qed.
Print Assumptions C72_rest.

Ltac by_run N mono cs :=
  let v := eval vm_compute in (xexec (T := nat) (E := nat) N mono x_start cs) in
  match v with Some (?s, ?cl, ?st, ?tr) =>
    exists s, cl, tr; split; [apply (x_run N mono cs s cl st tr); vm_cast_no_check (eq_refl v)|] end.

(** Step 1 reports an error and returns it too: it is seen once. *)
Example C72_once : exists s cl tr, @xreach nat nat 2 true s cl [XI WUser] tr /\ unhurried (flow_part tr) /\ saw tr = [OError 7] /\
  runs (flow_part tr) = [0; 1] /\ reports tr = [XError 7; XError 7; XSuccess 3] /\ In (XPanic (XNext 1)) tr.
Proof.
  by_run 2 true [XDo CGo; XRet; XDo (CStep 1); XDo CGo; XRet; XDo CLater; XDo CGo; XDone 0; XDo CGo; XDo CGo;
                 XSay (XNext 1); XGo; XSay (XError 7); XGo; XGo; XRet; XGo; XRet; XRet; @XErr nat nat 7; XGo; XSay (XSuccess 3); XGo].
  split; [|split; [reflexivity|split; [reflexivity|split; [reflexivity|cbn; auto 10]]]].
  intros a r b k Et Ho Hc. exfalso. apply Hc. clear Ho Hc.
  do 6 (destruct a as [|? a]; [cbn in Et; try discriminate Et; injection Et as <- _; cbn; auto 10|]; cbn in Et; injection Et as <- Et). destruct a; discriminate Et.
Qed.
(** A flux: two items, then completion from inside the callback of the second; the later error is not seen. *)
Example C72_flux : exists s cl tr, @xreach nat nat 1 false s cl [XI WUser] tr /\ saw tr = [ONext 1; ONext 2; OComplete] /\
  reports tr = [XNext 1; XNext 2; XComplete; XNext 3; XError 9].
Proof.
  by_run 1 false [XDo CGo; XSay (XNext 1); XGo; XGo; XRet; XSay (XNext 2); XGo; XGo; XSay XComplete; XGo; XGo; XRet; XGo; XRet; XRet;
                  XSay (XNext 3); XGo; XRet; @XErr nat nat 9; XGo].
  split; reflexivity.
Qed.

(** All steps done is not the end: a flow whose steps report nothing leaves its subscriber waiting. *)
Theorem C72_silent_refuted : exists s cl tr, @xreach nat nat 1 true s cl [XI WUser] tr /\ unhurried (flow_part tr) /\ fulfilled (flow_part tr) /\
  runs (flow_part tr) = [0] /\ w_pend s = [] /\ saw tr = [].
Proof.
  by_run 1 true [@XDo nat nat CGo; XRet; XDo (CStep 1); XDo CGo; XRet; XDo CLater; XDo CGo; XDone 0; XDo CGo; XDo CGo].
  split; [|split; [|split; [reflexivity|split; reflexivity]]].
  - intros a r b k Et Ho Hc. exfalso. apply Hc. clear Ho Hc.
    do 4 (destruct a as [|? a]; [cbn in Et; try discriminate Et; injection Et as <- _; cbn; auto 10|]; cbn in Et; injection Et as <- Et). destruct a; discriminate Et.
  - split; [|split]; cbn.
    + intros r H. repeat (destruct H as [H|H]; [discriminate H|]). exact H.
    + intro H. repeat (destruct H as [H|H]; [discriminate H|]). exact H.
    + intros r k H. repeat (destruct H as [H|H]; [try discriminate H; injection H as <- <-; auto|]). destruct H.
Qed.
Print Assumptions C72_silent_refuted.

(** Reporting success does not end the flow: the steps that follow are still run. *)
Theorem C72_after_refuted : exists s cl stack tr, @xreach nat nat 2 true s cl stack tr /\
  exists a b, tr = a ++ XSee (OSuccess 5) :: b /\ runs (flow_part b) = [1].
Proof.
  let cs := constr:([XDo CGo; @XSay nat nat (XSuccess 5); XGo; XGo; XRet; XGo; XRet; XRet; XDo (CStep 1); XDo CGo; XRet; XDo CLater; XDo CGo; XDone 0; XDo CGo; XDo CGo]) in
  let v := eval vm_compute in (xexec (T := nat) (E := nat) 2 true x_start cs) in
  match v with Some (?s, ?cl, ?st, ?tr) => exists s, cl, st, tr; split; [apply (x_run 2 true cs s cl st tr); vm_cast_no_check (eq_refl v)|] end.
  eexists [_; _], _. split; reflexivity.
Qed.
Print Assumptions C72_after_refuted.
