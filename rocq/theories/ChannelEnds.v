(** The two ends of a channel: what their steps preserve. *)
From Coq Require Import List NArith ZArith Lia Bool ZifyBool ZifyNat ZifyN.
From Verif Require Import Base FramesModel FramesSpec InvokeModel MonoModel FluxModel FluxSpec ProxyModel ProxySpec DispatchModel DispatchSpec ResponderModel ResponderSpec ResponderProofs ResponderSerial.
From Verif Require Import StreamModel StreamSpec StreamSides StreamWire StreamInv StreamProofs ChannelModel ChannelSpec ChannelSides ChannelWire.
Import ListNotations.
Open Scope N_scope.

(** ** One step of a requester's flux *)
Definition nocan (it : pitem) : bool := match it with PI (FEmit _ VCancelSrc) => false | _ => true end.
Section Flux.
Context (sp : bool) (g : fcfg) (r : request_frame).
Notation pstep := (pstep sp g r false).
Lemma nocan_cbs : forall l s, forallb nocan (map PI (map (fun k => FEmit true (VNotify k s)) l)) = true.
Proof. induction l as [|x l IH]; intro s; [reflexivity|]. exact (IH s). Qed.
Lemma fstep_nocan : forall st it st' its new evs, fstep sp g st it = Some (st', its, new, evs) -> In (@FluxModel.FCancel pay bytes) (fcalls evs) \/ forallb nocan (map PI its) = true /\ forallb (forallb nocan) (map (map PI) new) = true.
Proof.
  intros st it st' its new evs X. destruct it as [|n|c|c|on e| | |n|n|n|sg|sg]; cbn [fstep] in X; try discriminate X.
  - destruct c; repeat match type of X with context [if ?b then _ else _] => destruct b end; try discriminate X; injection X as <- <- <- <-; try (right; split; reflexivity). left. left. reflexivity.
  - destruct c; try discriminate X; injection X as <- <- <- <-; right; (split; [try reflexivity|reflexivity]). destruct (0 <? f_n st)%Z; reflexivity.
  - destruct on; [destruct e|]; injection X as <- <- <- <-; right; split; reflexivity.
  - injection X as <- <- <- <-. right. split; [|reflexivity]. destruct (f_n st =? 0)%Z; reflexivity.
  - injection X as <- <- <- <-. right. split; [|reflexivity]. destruct (k_norequest g); [reflexivity|]. destruct (k_request g); reflexivity.
  - injection X as <- <- <- <-. right. split; [|reflexivity]. destruct (f_req st); reflexivity.
  - destruct sp; injection X as <- <- <- <-; right; split; reflexivity.
  - destruct (f_req st); [|discriminate X]. injection X as <- <- <- <-. right; split; reflexivity.
  - injection X as <- <- <- <-. right; split; reflexivity.
  - injection X as <- <- <- <-. right. split; [apply nocan_cbs|reflexivity].
Qed.
Lemma pstep_nocan : forall st it st' its new evs, pstep st it = Some (st', its, new, evs) -> In (@FluxModel.FCancel pay bytes) (fcalls (pvs evs)) \/ forallb nocan its = true /\ forallb (forallb nocan) new = true.
Proof.
  intros st it st' its new evs X.
  assert (G : forall i, match fstep sp g (p_fl st) i with Some (fl, its, new, evs) => Some (mkP fl (p_first st) (p_complete st), map PI its, map (map PI) new, map PV evs) | None => None end = Some (st', its, new, evs) ->
    In (@FluxModel.FCancel pay bytes) (fcalls (pvs evs)) \/ forallb nocan its = true /\ forallb (forallb nocan) new = true).
  { intros i Z. destruct (fstep sp g (p_fl st) i) as [[[[fl is] nw] ev]|] eqn:F; [|discriminate Z]. injection Z as <- <- <- <-. rewrite pvs_PV. exact (fstep_nocan _ _ _ _ _ _ F). }
  destruct it as [it|n|]; [|right; destruct n; cbn [ProxyModel.pstep] in X; injection X as <- <- <- <-; destruct (f_sub (p_fl st)); split; reflexivity|right; cbn [ProxyModel.pstep] in X; injection X as <- <- <- <-; split; reflexivity].
  destruct it as [|n|c|c|on e| | |n|n|n|sg|sg]; try (match type of X with ProxyModel.pstep _ _ _ _ _ (_ ?i) = _ => exact (G i X) end).
  - destruct c; try (match type of X with ProxyModel.pstep _ _ _ _ _ (_ ?i) = _ => exact (G i X) end). cbn [ProxyModel.pstep fstep] in X. destruct (f_sub (p_fl st)); [discriminate X|]. injection X as <- <- <- <-. right; split; reflexivity.
  - destruct on; [|exact (G (FEmit false e) X)]. destruct e; try (match type of X with ProxyModel.pstep _ _ _ _ _ (_ ?i) = _ => exact (G i X) end); cbn [ProxyModel.pstep] in X; [destruct (p_complete st); [|destruct (p_first st)]|]; injection X as <- <- <- <-; right; split; reflexivity.
Qed.
(** What is sent, and when. *)
Inductive sends (st : pst) (it : pitem) (st' : pst) (its : list pitem) (new : list (list pitem)) (evs : list pevent) : Prop :=
| sd_none : psent evs = [] -> p_first st' = p_first st -> sends st it st' its new evs
| sd_first : forall n, it = PI (FEmit true (VReqSrc n)) -> psent evs = [with_n r n] -> p_first st = true -> p_first st' = false -> its = [] -> new = [] -> p_fl st' = p_fl st -> pvs evs = [VReqSrc n] -> nets evs = [] -> registers_now evs = false -> opens evs = true -> sends st it st' its new evs
| sd_more : forall n, it = PI (FEmit true (VReqSrc n)) -> psent evs = [FRequestN (rf_stream_id r) (u32z n)] -> p_first st = false -> p_first st' = false -> sends st it st' its new evs
| sd_cancel : it = PI (FEmit true VCancelSrc) -> psent evs = [FramesModel.FCancel (rf_stream_id r)] -> p_first st' = p_first st -> sends st it st' its new evs.
Lemma pstep_sends : forall st it st' its new evs, pstep st it = Some (st', its, new, evs) -> sends st it st' its new evs.
Proof.
  intros st it st' its new evs X.
  assert (G : forall i, match fstep sp g (p_fl st) i with Some (fl, its, new, evs) => Some (mkP fl (p_first st) (p_complete st), map PI its, map (map PI) new, map PV evs) | None => None end = Some (st', its, new, evs) -> sends st it st' its new evs).
  { intros i Z. destruct (fstep sp g (p_fl st) i) as [[[[fl is] nw] ev]|] eqn:F; [|discriminate Z]. injection Z as <- <- <- <-. apply sd_none; [apply psent_PV|reflexivity]. }
  destruct it as [it|n|]; [|destruct n; cbn [ProxyModel.pstep] in X; injection X as <- <- <- <-; apply sd_none; reflexivity|cbn [ProxyModel.pstep] in X; injection X as <- <- <- <-; apply sd_none; reflexivity].
  destruct it as [|n|c|c|on e| | |n|n|n|sg|sg]; try (match type of X with ProxyModel.pstep _ _ _ _ _ (_ ?i) = _ => exact (G i X) end).
  - destruct c; try (match type of X with ProxyModel.pstep _ _ _ _ _ (_ ?i) = _ => exact (G i X) end). cbn [ProxyModel.pstep fstep] in X. destruct (f_sub (p_fl st)); [discriminate X|]. injection X as <- <- <- <-. apply sd_none; reflexivity.
  - destruct on; [|exact (G (FEmit false e) X)]. destruct e; try (match type of X with ProxyModel.pstep _ _ _ _ _ (_ ?i) = _ => exact (G i X) end); cbn [ProxyModel.pstep] in X.
    + destruct (p_complete st); [|destruct (p_first st) eqn:Pf]; injection X as <- <- <- <-; [apply sd_none; reflexivity|eapply sd_first; try reflexivity; assumption|eapply sd_more; try reflexivity; assumption].
    + injection X as <- <- <- <-. apply sd_cancel; reflexivity.
Qed.
Lemma opens_sent : forall evs, psent evs = [] -> opens evs = false.
Proof. induction evs as [|e l IH]; [reflexivity|]. cbn [psent flat_map opens existsb]. intro E. apply app_eq_nil in E. destruct E as [E1 E2]. fold (opens l). rewrite (IH E2), orb_false_r. destruct e; try reflexivity. discriminate E1. Qed.
Lemma opens_one : forall evs f, psent evs = [f] -> is_request f = false -> opens evs = false.
Proof.
  induction evs as [|e l IH]; intros f E R; [reflexivity|]. cbn [psent flat_map opens existsb] in *. destruct e; try exact (IH f E R). cbn [app] in E. injection E as -> E. fold (psent l) in E. destruct f; try discriminate R; exact (opens_sent l E).
Qed.
End Flux.

(** ** Waiting items in place of waiting items *)
Lemma waits_held : forall its, forallb wait its = true -> filter holds its = [].
Proof. intros its W. apply filter_none. induction its as [|x l IH]; [reflexivity|]. cbn [forallb] in *. apply andb_true_iff in W. destruct W as [W1 W2]. rewrite (IH W2), andb_true_r. unfold wait in W1. apply andb_true_iff in W1. tauto. Qed.
Lemma waits_helds : forall new, forallb (forallb wait) new = true -> held new = [].
Proof. induction new as [|x l IH]; [reflexivity|]. cbn [forallb]. intro W. apply andb_true_iff in W. destruct W as [W1 W2]. unfold held in *. cbn [flat_map]. rewrite (waits_held x W1), (IH W2). reflexivity. Qed.
Lemma waits_pendings : forall sid new, forallb (forallb wait) new = true -> pending sid new = [].
Proof. intros sid. induction new as [|x l IH]; [reflexivity|]. cbn [forallb]. intro W. apply andb_true_iff in W. destruct W as [W1 W2]. unfold pending in *. cbn [flat_map]. rewrite (waits_pend sid x W1), (IH W2). reflexivity. Qed.
Lemma waits_closings : forall new, forallb (forallb wait) new = true -> closings new = false.
Proof. induction new as [|x l IH]; [reflexivity|]. cbn [forallb]. intro W. apply andb_true_iff in W. destruct W as [W1 W2]. unfold closings in *. cbn [existsb]. rewrite (waits_closes x W1), (IH W2). reflexivity. Qed.
Lemma waits_sounds : forall new, forallb (forallb wait) new = true -> forallb (forallb sound) new = true.
Proof. induction new as [|x l IH]; [reflexivity|]. cbn [forallb]. intro W. apply andb_true_iff in W. destruct W as [W1 W2]. rewrite (waits_sound x W1). exact (IH W2). Qed.
Lemma held_swap : forall l it stack rest its new, wait it = true -> forallb wait its = true -> forallb (forallb wait) new = true -> held (l ++ (its ++ stack) :: rest ++ new) = held (l ++ (it :: stack) :: rest).
Proof.
  intros l it stack rest its new W W1 W2. rewrite !held_at, held_app, filter_app, (waits_held its W1), (waits_helds new W2), app_nil_r. cbn [filter app]. replace (holds it) with false; [reflexivity|]. unfold wait in W. apply andb_true_iff in W. destruct W as [W _]. destruct (holds it); [discriminate W|reflexivity].
Qed.
Lemma sinv_swap : forall sid st l it stack rest tr its new, sinv sid st (l ++ (it :: stack) :: rest) tr -> wait it = true -> forallb wait its = true -> forallb (forallb wait) new = true -> sinv sid st (l ++ (its ++ stack) :: rest ++ new) tr.
Proof.
  intros sid st l it stack rest tr its new [O S A C] W W1 W2. constructor.
  - rewrite (held_swap l it stack rest its new W W1 W2). exact O.
  - rewrite forallb_at in *. cbn [forallb] in S. rewrite !forallb_app, (waits_sound its W1), (waits_sounds new W2). rewrite !andb_true_iff in *. tauto.
  - rewrite pending_at in *. rewrite pending_app, flat_map_app, (waits_pend sid its W1), (waits_pendings sid new W2), app_nil_r. cbn [flat_map app] in *. rewrite (wait_pend sid it W) in A. exact A.
  - rewrite closings_at in *. rewrite existsb_app, (waits_closes its W1). unfold closings at 2. rewrite existsb_app. fold (closings rest) (closings new). rewrite (waits_closings new W2), orb_false_r. cbn [existsb orb] in *. rewrite (wait_closes it W) in C. exact C.
Qed.

(** ** One step of a responder: items and credit *)
Section Responder.
Context (sr : bool) (gin : fcfg) (sid initial : N).
Notation rstep := (rstep sr gin sid initial).
Lemma fit_RI : forall its, Forall fit (map RI its). Proof. induction its; constructor; [exact Logic.I|assumption]. Qed.
Lemma fit_RIs : forall new, Forall (Forall fit) (map (map RI) new). Proof. induction new; constructor; [apply fit_RI|assumption]. Qed.
Lemma asked_RI : forall its, flat_map asked (map RI its) = []. Proof. induction its; [reflexivity|assumption]. Qed.
Lemma asked_RIs : forall new, flat_map (flat_map asked) (map (map RI) new) = []. Proof. induction new as [|x l IH]; [reflexivity|]. cbn [map flat_map]. rewrite asked_RI. exact IH. Qed.
Lemma net_requests_RIV : forall evs, net_requests (map RIV evs) = []. Proof. induction evs; [reflexivity|assumption]. Qed.

Lemma r_fit : forall st it st' its new evs, fit it -> sound it = true -> rstep st it = Some (st', its, new, evs) ->
  Forall fit its /\ Forall (Forall fit) new /\ Forall sendable_call (out_calls evs) /\ net_requests evs = asked it /\ flat_map asked its = [] /\ flat_map (flat_map asked) new = [].
Proof.
  intros st it st' its new evs F S X.
  assert (G : forall i, (match i with FEmit _ (VCall _) => False | FDo c => sendable_call c | _ => True end) -> match fstep sr resp_cfg (r_out st) i with Some (fl, its, new, evs) => Some (mkR fl (r_in st) (r_sub st), map RO its, map (map RO) new, map ROV evs) | None => None end = Some (st', its, new, evs) ->
    Forall fit its /\ Forall (Forall fit) new /\ Forall sendable_call (out_calls evs) /\ net_requests evs = [] /\ flat_map asked its = [] /\ flat_map (flat_map asked) new = []).
  { intros i Hi Z. destruct (fstep sr resp_cfg (r_out st) i) as [[[[fl is] nw] ev]|] eqn:Fs; [|discriminate Z]. injection Z as <- <- <- <-. destruct (fstep_fit _ _ _ _ _ _ _ Fs) as [A B].
    split; [apply Forall_map_RO; exact A|]. split; [apply Forall_map_ROs; exact B|]. split; [apply Forall_calls; exact (fstep_calls _ _ _ _ _ _ _ Fs Hi)|]. split; [apply net_requests_ROV|]. split; [apply asked_RO|apply asked_ROs]. }
  assert (G' : forall i, match fstep sr gin (r_in st) i with Some (fl, its, new, evs) => Some (mkR (r_out st) fl (r_sub st), map RI its, map (map RI) new, map RIV evs) | None => None end = Some (st', its, new, evs) ->
    Forall fit its /\ Forall (Forall fit) new /\ Forall sendable_call (out_calls evs) /\ net_requests evs = [] /\ flat_map asked its = [] /\ flat_map (flat_map asked) new = []).
  { intros i Z. destruct (fstep sr gin (r_in st) i) as [[[[fl is] nw] ev]|] eqn:Fs; [|discriminate Z]. injection Z as <- <- <- <-. rewrite calls_RIV, net_requests_RIV, asked_RI, asked_RIs. split; [apply fit_RI|]. split; [apply fit_RIs|]. repeat split. constructor. }
  destruct it as [it|it| | |c].
  - destruct it as [|n|c|c|on e| | |n|n|n|sg|sg]; try (match type of X with ResponderModel.rstep _ _ _ _ _ (_ ?i) = _ => exact (G i F X) end); try (match type of X with ResponderModel.rstep _ _ _ _ _ (_ ?i) = _ => exact (G i Logic.I X) end).
    destruct on.
    + cbn [ResponderModel.rstep] in X. destruct (frame_of sid e) as [f|] eqn:Fr.
      * injection X as <- <- <- <-. repeat split; try constructor; destruct e; try discriminate Fr; try reflexivity; constructor.
      * apply (G (FEmit true e)); [|exact X]. destruct e; try exact Logic.I. discriminate S.
    + apply (G (FEmit false e)); [|exact X]. destruct e; try exact Logic.I. discriminate S.
  - destruct it as [|n|c|c|on e| | |n|n|n|sg|sg]; try (match type of X with ResponderModel.rstep _ _ _ _ _ (_ ?i) = _ => exact (G' i X) end).
    + destruct c; try (match type of X with ResponderModel.rstep _ _ _ _ _ (_ ?i) = _ => exact (G' i X) end). cbn [ResponderModel.rstep fstep] in X. destruct (f_sub (r_in st)); [discriminate X|]. injection X as <- <- <- <-. repeat split; repeat constructor.
    + destruct on; [|exact (G' (FEmit false e) X)]. destruct e; try (match type of X with ResponderModel.rstep _ _ _ _ _ (_ ?i) = _ => exact (G' i X) end); cbn [ResponderModel.rstep] in X; injection X as <- <- <- <-; repeat split; repeat constructor.
  - cbn in X. injection X as <- <- <- <-. repeat split; repeat constructor.
  - cbn in X. injection X as <- <- <- <-. repeat split; repeat constructor.
  - destruct c; cbn [ResponderModel.rstep] in X; match type of X with (if ?b then _ else _) = _ => destruct b; [|discriminate X] end; injection X as <- <- <- <-; repeat split; repeat constructor.
Qed.
End Responder.
