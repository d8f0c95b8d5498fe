(** Invariants of the two ends of a channel. *)
From Coq Require Import List NArith ZArith Lia Bool ZifyBool ZifyNat ZifyN.
From Verif Require Import Base FramesModel FramesSpec InvokeModel MonoModel FluxModel FluxSpec ProxyModel ProxySpec DispatchModel DispatchSpec ResponderModel ResponderSpec ResponderProofs ResponderSerial.
From Verif Require Import StreamModel StreamSpec StreamSides StreamWire StreamInv StreamProofs ChannelModel ChannelSpec ChannelSides ChannelWire ChannelEnds.
From Verif Require CallSpec.
Import ListNotations.
Open Scope N_scope.

Definition asking (ptr : list qevent) : Prop := exists n, In (EAsk n) ptr.
Definition easks (ptr : list qevent) : list N := flat_map (fun e => match e with EAsk n => [n] | _ => [] end) ptr.
Definition qearly (it : qitem) : bool := match it with QP it => early it | QI (RO (FDo c)) => rcalls c | QI _ => false end.
Definition riearly (it : ritem) : bool := match it with RI it => early (PI it) | _ => true end.
Definition no_owed (sid : N) (c : fcall pay bytes) : Prop := owed sid c = [].
Definition cancelling (l : list (fevent pay bytes)) : Prop := In (@FluxModel.FCancel pay bytes) (fcalls l).

Lemma easks_app : forall a b, easks (a ++ b) = easks a ++ easks b. Proof. intros. apply flat_map_app. Qed.
Lemma easks_EP : forall evs, easks (map EP evs) = []. Proof. induction evs; [reflexivity|assumption]. Qed.
Lemma easks_EI : forall evs, easks (map EI evs) = []. Proof. induction evs; [reflexivity|assumption]. Qed.
Lemma asking_app : forall a b, asking a -> asking (a ++ b). Proof. intros a b [n I]. exists n. apply in_or_app. left; exact I. Qed.
Lemma fcalls_app : forall a b : list (fevent pay bytes), fcalls (a ++ b) = fcalls a ++ fcalls b. Proof. intros. unfold fcalls. apply flat_map_app. Qed.
Lemma cancelling_app : forall a b, cancelling (a ++ b) <-> cancelling a \/ cancelling b.
Proof. intros. unfold cancelling. rewrite fcalls_app, in_app_iff. reflexivity. Qed.
Lemma tok_sent : forall l, Forall (fun f => is_request f = false) l -> nsum tok l = 0.
Proof. induction 1 as [|f l R F IH]; [reflexivity|]. rewrite nsum_cons, IH. destruct f; try discriminate R; reflexivity. Qed.
Lemma fit_QP : forall its, Forall fit (map iit (map QP its)).
Proof. induction its as [|x l IH]; [constructor|]. constructor; [|exact IH]. destruct x as [x|n|]; try exact Logic.I. destruct x; exact Logic.I. Qed.
Lemma fit_QPs : forall new, Forall (Forall fit) (map (map iit) (map (map QP) new)).
Proof. induction new as [|x l IH]; [constructor|]. constructor; [apply fit_QP|exact IH]. Qed.
Lemma nocan_QI : forall its, forallb nocan (map pit (map QI its)) = true.
Proof. induction its as [|x l IH]; [reflexivity|]. cbn [map forallb pit]. rewrite IH, andb_true_r. destruct (is_ruser x); reflexivity. Qed.
Lemma nocan_QIs : forall new, forallb (forallb nocan) (map (map pit) (map (map QI) new)) = true.
Proof. induction new as [|x l IH]; [reflexivity|]. cbn [map forallb]. rewrite nocan_QI. exact IH. Qed.
Lemma clean_nets : forall its, forallb clean its = true -> forallb not_net its = true.
Proof. induction its as [|x l IH]; [reflexivity|]. cbn [forallb]. intro C. apply andb_true_iff in C. destruct C as [C1 C2]. rewrite (IH C2), andb_true_r. destruct x; try reflexivity. discriminate C1. Qed.
Lemma wait_QP : forall it, wait (iit (QP it)) = true. Proof. intro it. destruct it as [it|n|]; try reflexivity. destruct it; reflexivity. Qed.
Lemma filter_all : forall {A} (f : A -> bool) l, (forall x, In x l -> f x = true) -> filter f l = l.
Proof. intros A f. induction l as [|x l IH]; intro F; [reflexivity|]. cbn [filter]. rewrite (F x (or_introl eq_refl)), IH by (intros y Y; apply F; right; exact Y). reflexivity. Qed.
Lemma filter_nil : forall {A} (f : A -> bool) l, (forall x, In x l -> f x = false) -> filter f l = [].
Proof. intros A f. induction l as [|x l IH]; intro F; [reflexivity|]. cbn [filter]. rewrite (F x (or_introl eq_refl)), IH by (intros y Y; apply F; right; exact Y). reflexivity. Qed.
Lemma existsb_none : forall {A} (f : A -> bool) l, (forall x, In x l -> f x = false) -> existsb f l = false.
Proof. intros A f. induction l as [|x l IH]; intro F; [reflexivity|]. cbn [existsb]. rewrite (F x (or_introl eq_refl)), IH by (intros y Y; apply F; right; exact Y). reflexivity. Qed.
Lemma quser_views : forall u, is_quser u = true -> pit u = PI FUser /\ is_ruser (iit u) = true /\ qearly u = true \/ pit u = PI FUser /\ is_ruser (iit u) = true /\ exists it, u = QI it.
Proof. intros [it|it] U; [destruct it as [it| |]; try discriminate U; destruct it; try discriminate U; left; repeat split|]. destruct it as [it| | | |]; try discriminate U. destruct it; try discriminate U; right; (split; [reflexivity|]); (split; [reflexivity|]); eauto. Qed.

Section Sides.
Context (sp sr : bool) (g gin : fcfg) (sid : N) (data md : bytes).
Context (Sid : sid < 2^31) (Snd : CallSpec.sendable data md).
Notation req := (channel_request sid data md).
Notation pstep := (pstep sp g req false).
Notation qstep := (qstep sp g sid data md).
Notation good := (good sid).
Notation chan_frame := (chan_frame sid data md).
Notation side_frame := (side_frame sid).

(** ** The requester *)
Record pside (p : pst) (i : rst) (pths : list (list qitem)) (ptr : list qevent) : Prop := {
  ps_k : kinv g p (map (map pit) pths) (pev ptr);
  ps_inv : ResponderProofs.inv i (map (map iit) pths) (iev ptr);
  ps_sinv : sinv sid i (map (map iit) pths) (iev ptr);
  ps_fit : Forall (Forall fit) (map (map iit) pths);
  ps_calls : Forall sendable_call (out_calls (iev ptr));
  ps_early : f_sub (p_fl p) = false -> f_sub (r_out i) = false /\ p_first p = true /\ forallb (forallb qearly) pths = true /\ qsent ptr = [];
  ps_sent : Forall chan_frame (qsent ptr);
  ps_ans : filter is_answer (qsent ptr) = answers (iev ptr);
  ps_tok : nsum tok (qsent ptr) <= if p_first p then 0 else 1;
  ps_cancel : cancelling (pvs (pev ptr)) \/ forallb (forallb nocan) (map (map pit) pths) = true /\ existsb is_cancel (qsent ptr) = false;
  ps_ask : asking ptr \/ Forall (no_owed sid) (out_calls (iev ptr)) }.

Lemma pside_init : forall n, pside proxy_create responder_create (repeat [QP (PI FUser)] (S n)) [].
Proof.
  intro n. assert (E1 : map (map pit) (repeat [QP (PI FUser)] (S n)) = repeat [PI FUser] (S n)) by (induction (S n) as [|k IH]; [reflexivity|]; cbn [repeat map]; rewrite IH; reflexivity).
  assert (E2 : map (map iit) (repeat [QP (PI FUser)] (S n)) = repeat [RO FUser] (S n)) by (clear E1; induction (S n) as [|k IH]; [reflexivity|]; cbn [repeat map]; rewrite IH; reflexivity).
  assert (Q : held (repeat [RO FUser] (S n)) = []) by (clear E1 E2; induction n; [reflexivity|assumption]). constructor; rewrite ?E1, ?E2.
  - apply kinv_init.
  - constructor; rewrite ?Q; try reflexivity; [apply Nat.le_0_l|left; reflexivity|discriminate].
  - apply (sinv_init sid (S n)).
  - clear E1 E2 Q. induction (S n); [constructor|]. constructor; [repeat constructor|assumption].
  - constructor.
  - intros _. repeat split. clear E1 E2 Q. induction (S n); [reflexivity|assumption].
  - constructor.
  - reflexivity.
  - reflexivity.
  - right. split; [|reflexivity]. clear E1 E2 Q. induction (S n); [reflexivity|assumption].
  - right. constructor.
Qed.

Lemma pside_asked : forall p i pths ptr n, pside p i pths ptr -> pside p i pths (ptr ++ [EAsk n]).
Proof.
  intros p i pths ptr n []. assert (E1 : pev (ptr ++ [EAsk n]) = pev ptr) by (rewrite pev_app; apply app_nil_r). assert (E2 : iev (ptr ++ [EAsk n]) = iev ptr) by (rewrite iev_app; apply app_nil_r). assert (E3 : qsent (ptr ++ [EAsk n]) = qsent ptr) by (rewrite qsent_app; apply app_nil_r).
  constructor; rewrite ?E1, ?E2, ?E3; try assumption. left. exists n. apply in_or_app. right; left; reflexivity.
Qed.

(** Calls of user code; DoRequest. *)
Lemma pside_push : forall p i l u stack rest ptr c, pside p i (l ++ (u :: stack) :: rest) ptr -> is_quser u = true -> qcall c = true \/ (exists n, c = QI (RO (FDo (FRequest n)))) -> fit (iit c) ->
  pside p i (l ++ (c :: u :: stack) :: rest) ptr /\ head_nets (map (map pit) (l ++ (c :: u :: stack) :: rest)) = head_nets (map (map pit) (l ++ (u :: stack) :: rest)).
Proof.
  intros p i l u stack rest ptr c [] U C F.
  assert (Cv : clean (pit c) = true /\ wait (iit c) = true /\ holds (iit c) = false /\ qearly c = true /\ nocan (pit c) = true).
  { destruct C as [C|[n ->]]; [|repeat split]. destruct c as [it|it]; [destruct it as [it| |]; try discriminate C; destruct it; try discriminate C; cbn [qcall] in C; destruct c; try discriminate C; repeat split|].
    destruct it as [it| | | |]; try discriminate C. destruct it; try discriminate C. cbn [qcall] in C. repeat split. exact C. }
  destruct Cv as (C1 & C2 & C3 & C4 & C5).
  assert (U1 : pit u = PI FUser) by (destruct (quser_views u U) as [(Z & _)|(Z & _)]; exact Z).
  split.
  - constructor; try assumption.
    + rewrite map_at in *. cbn [map] in *. assert (Z := kinv_swap g _ _ _ _ _ _ [pit c; pit u] [] ps_k0). rewrite app_nil_r in Z. apply Z; [rewrite U1; reflexivity|cbn [forallb]; rewrite C1, U1; reflexivity|reflexivity].
    + eapply rinv_held; [exact ps_inv0|]. rewrite !map_at. cbn [map]. apply held_push. exact C3.
    + rewrite map_at in *. cbn [map] in *. apply sinv_call; assumption.
    + rewrite map_at in *. cbn [map] in *. rewrite Forall_at in *. destruct ps_fit0 as (F1 & F2 & F3). split; [exact F1|]. split; [constructor; assumption|exact F3].
    + intro Z. destruct (ps_early0 Z) as (E1 & E2 & E3 & E4). split; [exact E1|]. split; [exact E2|]. split; [|exact E4]. rewrite forallb_at in *. cbn [forallb] in *. rewrite C4. exact E3.
    + destruct ps_cancel0 as [Z|[Z1 Z2]]; [left; exact Z|right]. split; [|exact Z2]. rewrite map_at in *. cbn [map] in *. rewrite forallb_at in *. cbn [forallb] in *. rewrite C5. exact Z1.
  - rewrite !map_at. cbn [map]. destruct l as [|x l]; [|reflexivity]. cbn [map app]. rewrite U1. destruct (pit c); try reflexivity. discriminate C1.
Qed.
Lemma pside_return : forall p i l u it stack rest ptr, pside p i (l ++ (u :: it :: stack) :: rest) ptr -> is_quser u = true ->
  pside p i (l ++ (it :: stack) :: rest) ptr /\ head_nets (map (map pit) (l ++ (it :: stack) :: rest)) = head_nets (map (map pit) (l ++ (u :: it :: stack) :: rest)).
Proof.
  intros p i l u it stack rest ptr [] U. assert (Uv : pit u = PI FUser /\ is_ruser (iit u) = true) by (destruct (quser_views u U) as [(Z1 & Z2 & _)|(Z1 & Z2 & _)]; split; assumption). destruct Uv as [U1 U2].
  split.
  - constructor; try assumption.
    + rewrite map_at in *. cbn [map] in *. rewrite U1 in ps_k0. apply kinv_return. exact ps_k0.
    + eapply rinv_held; [exact ps_inv0|]. rewrite !map_at. cbn [map]. symmetry. apply held_pop. apply user_holds. exact U2.
    + rewrite map_at in *. cbn [map] in *. eapply sinv_return; eassumption.
    + rewrite map_at in *. cbn [map] in *. rewrite Forall_at in *. destruct ps_fit0 as (F1 & F2 & F3). split; [exact F1|]. split; [inversion F2; assumption|exact F3].
    + intro Z. destruct (ps_early0 Z) as (E1 & E2 & E3 & E4). split; [exact E1|]. split; [exact E2|]. split; [|exact E4]. rewrite forallb_at in *. cbn [forallb] in *. rewrite !andb_true_iff in *. tauto.
    + destruct ps_cancel0 as [Z|[Z1 Z2]]; [left; exact Z|right]. split; [|exact Z2]. rewrite map_at in *. cbn [map] in *. rewrite forallb_at in *. cbn [forallb] in *. rewrite !andb_true_iff in *. tauto.
  - rewrite !map_at in *. cbn [map] in *. destruct l as [|x l]; [|reflexivity]. cbn [map app] in *. rewrite U1 in *. destruct ps_k0 as [(d & us & E & _ & S & _)]. injection E as <- <-. destruct S as [S|(it' & t & S & Sh & _)]; [|injection S as <- <-; discriminate Sh].
    cbn [forallb] in S. rewrite !andb_true_iff in S. destruct (pit it); try reflexivity. destruct S as (_ & S & _). discriminate S.
Qed.

(** Steps. *)
Definition step_facts (p : pst) (i : rst) (pths pths' : list (list qitem)) (ptr : list qevent) (p' : pst) (i' : rst) (evs : list qevent) : Prop :=
  pside p' i' pths' (ptr ++ evs) /\ f_sub (p_fl p') = f_sub (p_fl p) || qregisters evs /\ (qregisters evs = true -> f_sub (p_fl p) = false) /\ Forall chan_frame (qsent evs) /\
  (f_sub (p_fl p') = false -> qsent evs = []) /\ easks evs = [] /\ nets (pev (ptr ++ evs)) ++ head_nets (map (map pit) pths') = nets (pev ptr) ++ head_nets (map (map pit) pths).

Lemma pside_P : forall p i l it stack rest ptr p' its new evs, pside p i (l ++ (QP it :: stack) :: rest) ptr -> pstep p it = Some (p', its, new, evs) ->
  step_facts p i (l ++ (QP it :: stack) :: rest) (l ++ ((map QP its ++ (if opens evs then [QI (RO (FDo FSubscribe))] else [])) ++ stack) :: rest ++ map (map QP) new) ptr p' i (map EP evs).
Proof.
  intros p i l it stack rest ptr p' its new evs [] X. rewrite map_at in ps_k0. rewrite map_at in ps_inv0. rewrite map_at in ps_sinv0. rewrite map_at in ps_fit0. rewrite map_at in ps_cancel0. cbn [map] in *. change (pit (QP it)) with it in *.
  destruct (pstep_request sp g req (stream_request sid data md) _ _ _ _ _ _ X) as (evs' & X' & Pv & Nt & Rg).
  destruct (any_step sp g sid data md _ _ _ _ _ _ X' (kinv_item _ _ _ _ _ _ _ ps_k0)) as [_ Fs]. rewrite Rg in Fs. destruct (step_no_net sp g sid data md _ _ _ _ _ _ X') as [Nn Ne]. rewrite Nt in Ne.
  assert (Ea : f_sub (p_fl p) = false -> early it = true). { intro Z. destruct (ps_early0 Z) as (_ & _ & E & _). rewrite forallb_at in E. cbn [forallb] in E. rewrite !andb_true_iff in E. tauto. }
  assert (Su : (exists n, it = PNetDo n) -> f_sub (p_fl p) = true). { intros [n ->]. destruct (f_sub (p_fl p)) eqn:Z; [reflexivity|]. discriminate (Ea eq_refl). }
  set (ex := if opens evs then [QI (RO (FDo FSubscribe))] else []).
  assert (Kn : kinv g p' (map (map pit) (l ++ ((map QP its ++ ex) ++ stack) :: rest ++ map (map QP) new)) (pev ptr ++ evs) /\ (opens evs = true -> its = [] /\ new = [] /\ clean it = true) ).
  { rewrite map_at2, map_app, pit_QP, pit_QPs. assert (Sn := pstep_sends _ _ _ _ _ _ _ _ _ X). subst ex. destruct Sn as [S1 S2|n -> S1 S2 S3 -> -> S4 S5 S6 S7 S8|n -> S1 S2 S3| -> S1 S2].
    - rewrite (opens_sent _ S1). cbn [map]. rewrite app_nil_r. split; [|discriminate]. eapply kinv_pstep; eassumption.
    - rewrite S8. cbn [map app]. split; [|intros _; repeat split]. change (pit (QI (RO (FDo FSubscribe)))) with PSetComplete. eapply (kinv_clean g p _ _ _ _ _ p' [PSetComplete] [] evs ps_k0); try reflexivity; [rewrite S5; reflexivity|exact S6|]. left. rewrite S4. split; [reflexivity|]. unfold disturbed. rewrite S5. reflexivity.
    - rewrite (opens_one _ _ S1 eq_refl). cbn [map]. rewrite app_nil_r. split; [|discriminate]. eapply kinv_pstep; eassumption.
    - rewrite (opens_one _ _ S1 eq_refl). cbn [map]. rewrite app_nil_r. split; [|discriminate]. eapply kinv_pstep; eassumption. }
  destruct Kn as [Kn Op].
  assert (Wx : forallb wait (map iit (map QP its ++ ex)) = true) by (rewrite map_app, forallb_app, iit_QP_wait; subst ex; destruct (opens evs); reflexivity).
  assert (Sn := pstep_sends _ _ _ _ _ _ _ _ _ X).
  assert (Cf : Forall chan_frame (psent evs)).
  { destruct Sn as [S1 S2|n _ S1 _ _ _ _ _ _ _ _ _|n _ S1 _ _|_ S1 _]; rewrite S1; [constructor| | |]; (constructor; [|constructor]); [left; exists n; reflexivity|right; left; exists n; reflexivity|right; right; left; reflexivity]. }
  assert (Dm : f_sub (p_fl p') = false -> its = [] /\ new = [] /\ psent evs = []).
  { intro Z. rewrite Fs in Z. apply orb_false_iff in Z. destruct Z as [Z1 Z2]. destruct (early_step sp g sid data md _ _ _ _ _ _ (Ea Z1) Z1 X') as [Z|(_ & -> & -> & _)]; [rewrite Fs, Z1, Z2 in Z; discriminate Z|]. split; [reflexivity|]. split; [reflexivity|].
    assert (E0 := Ea Z1). destruct Sn as [S1 S2|n -> _ _ _ _ _ _ _ _ _ _|n -> _ _ _| -> _ _]; [exact S1|discriminate E0|discriminate E0|discriminate E0]. }
  unfold step_facts. rewrite qreg_EP, easks_EP, qsent_EP, pev_app, pev_EP.
  split; [|split; [exact Fs|split; [|split; [exact Cf|split; [intro Z; destruct (Dm Z) as (_ & _ & Q); exact Q|split; [reflexivity|]]]]]].
  - constructor; rewrite ?pev_app, ?pev_EP, ?iev_app, ?iev_EP, ?app_nil_r, ?qsent_app, ?qsent_EP; try assumption.
    + eapply rinv_held; [exact ps_inv0|]. rewrite map_at2. apply held_swap; [apply wait_QP|exact Wx|apply iit_QPs_wait].
    + rewrite map_at2. eapply sinv_swap; [exact ps_sinv0|apply wait_QP|exact Wx|apply iit_QPs_wait].
    + rewrite map_at2. apply Forall_at in ps_fit0. destruct ps_fit0 as (F1 & F2 & F3). inversion F2 as [|? ? _ F4]; subst. apply Forall_at. split; [exact F1|]. split; [apply Forall_app; split; [|exact F4]|apply Forall_app; split; [exact F3|apply fit_QPs]].
      rewrite map_app. apply Forall_app. split; [apply fit_QP|]. subst ex. destruct (opens evs); repeat constructor.
    + intro Z. destruct (Dm Z) as (D1 & D2 & D3). rewrite Fs in Z. apply orb_false_iff in Z. destruct Z as [Z1 Z2]. destruct (ps_early0 Z1) as (E1 & E2 & E3 & E4). split; [exact E1|]. split; [|split].
      * destruct Sn as [S1 S2|n -> S1 _ _ _ _ _ _ _ _ _|n -> S1 _ _| -> S1 S2]; [congruence|rewrite S1 in D3; discriminate D3|rewrite S1 in D3; discriminate D3|congruence].
      * subst ex its new. rewrite (opens_sent _ D3). cbn [map app]. rewrite app_nil_r. rewrite forallb_at in *. cbn [forallb] in E3. rewrite !andb_true_iff in *. tauto.
      * rewrite E4, D3. reflexivity.
    + apply Forall_app. split; assumption.
    + rewrite filter_app, ps_ans0. replace (filter is_answer (psent evs)) with (@nil frame); [apply app_nil_r|]. symmetry. destruct Sn as [S1 S2|n _ S1 _ _ _ _ _ _ _ _ _|n _ S1 _ _|_ S1 _]; rewrite S1; reflexivity.
    + rewrite nsum_app. destruct Sn as [S1 S2|n _ S1 S2 S3 _ _ _ _ _ _ _|n _ S1 S2 S3|_ S1 S2]; rewrite S1, ?nsum_cons, nsum_nil; cbn [tok with_n].
      * rewrite S2. lia.
      * rewrite S2 in ps_tok0. rewrite S3. lia.
      * rewrite S2 in ps_tok0. rewrite S3. lia.
      * rewrite S2. lia.
    + destruct ps_cancel0 as [Z|[Z1 Z2]]; [left; rewrite pvs_app; apply cancelling_app; left; exact Z|]. destruct (pstep_nocan _ _ _ _ _ _ _ _ _ X) as [C|[C1 C2]]; [left; rewrite pvs_app; apply cancelling_app; right; exact C|]. right.
      rewrite forallb_at in Z1. cbn [forallb] in Z1. rewrite !andb_true_iff in Z1. destruct Z1 as (Z3 & (Z4 & Z5) & Z6). split.
      * rewrite map_at2, map_app, pit_QP, pit_QPs, forallb_at, !forallb_app, Z3, Z5, Z6, C1, C2. subst ex. destruct (opens evs); reflexivity.
      * rewrite existsb_app, Z2. destruct Sn as [S1 S2|n _ S1 _ _ _ _ _ _ _ _ _|n _ S1 _ _| -> S1 _]; [rewrite S1; reflexivity|rewrite S1; reflexivity|rewrite S1; reflexivity|discriminate Z4].
    + destruct ps_ask0 as [Z|Z]; [left; apply asking_app; exact Z|right; exact Z].
  - intro Z. destruct (first_step sp g sid data md _ _ _ _ _ _ X' (eq_trans Rg Z)) as [_ F0]. exact F0.
  - rewrite nets_app, Ne. rewrite map_at2, map_app, pit_QP, pit_QPs. rewrite (map_at pit). cbn [map].
    assert (Nx : forallb not_net (its ++ map pit ex) = true) by (rewrite forallb_app, Nn; subst ex; destruct (opens evs); reflexivity).
    destruct (head_step g p _ _ (map (map pit) l) it (map pit stack) (map (map pit) rest) (its ++ map pit ex) new ps_k0 eq_refl Nx) as [Hd _]. change (pit (QP it)) with it. rewrite Hd, <- app_assoc. reflexivity.
Qed.

Lemma pside_I : forall p i l it stack rest ptr i' its new evs, pside p i (l ++ (QI (RO it) :: stack) :: rest) ptr -> rstep sp no_cfg sid 0 i (RO it) = Some (i', its, new, evs) ->
  (begins (RO it) = true -> qidle (l ++ (QI (RO it) :: stack) :: rest) = true /\ asking ptr) ->
  step_facts p i (l ++ (QI (RO it) :: stack) :: rest) (l ++ (map QI its ++ stack) :: rest ++ map (map QI) new) ptr p i' (map EI evs).
Proof.
  intros p i l it stack rest ptr i' its new evs [] X B. rewrite map_at in ps_k0. rewrite map_at in ps_inv0. rewrite map_at in ps_sinv0. rewrite map_at in ps_fit0. rewrite map_at in ps_cancel0. cbn [map] in *. change (iit (QI (RO it))) with (RO it) in *.
  assert (Id : begins (RO it) = true -> idle (map (map iit) l ++ (RO it :: map iit stack) :: map (map iit) rest) = true).
  { intro Z. destruct (B Z) as [Q _]. change (map (map iit) l ++ (RO it :: map iit stack) :: map (map iit) rest) with (map (map iit) l ++ map iit (QI (RO it) :: stack) :: map (map iit) rest). rewrite <- map_at. revert Q. generalize (l ++ (QI (RO it) :: stack) :: rest). clear. intros ths Q. unfold qidle in Q. unfold idle.
    induction ths as [|x ths IH]; [reflexivity|]. cbn [map forallb] in *. apply andb_true_iff in Q. destruct Q as [Q1 Q2]. rewrite (IH Q2), andb_true_r. clear -Q1. induction x as [|y x IH]; [reflexivity|]. cbn [map forallb] in *. apply andb_true_iff in Q1. destruct Q1 as [Q1 Q2]. rewrite (IH Q2), andb_true_r. destruct y as [y|y]; [|exact Q1]. destruct y as [y|n|]; try reflexivity. destruct y; reflexivity. }
  assert (So : sound (RO it) = true). { assert (Z := s_sound _ _ _ _ ps_sinv0). rewrite forallb_at in Z. cbn [forallb] in Z. rewrite !andb_true_iff in Z. tauto. }
  assert (Fi := ps_fit0). apply Forall_at in Fi. destruct Fi as (F1 & F2 & F3). inversion F2 as [|? ? F4 F5]; subst.
  destruct (r_fit sp no_cfg sid 0 _ _ _ _ _ _ F4 So X) as (R1 & R2 & R3 & _).
  assert (I' := inv_step sp no_cfg sid 0 _ _ _ _ _ _ _ _ _ _ ps_inv0 X Id). assert (S' := sinv_step sp no_cfg sid 0 _ _ _ _ _ _ _ _ _ _ ps_sinv0 X Id (v_one _ _ _ I')).
  assert (An : sent_frames evs = answers evs).
  { destruct (rstep_input _ _ _ _ _ _ _ _ _ _ X) as [evs' Hi _ _ _ _ _ _ _|n c E _ _ _ _ _ _ _|_ _ _ _ _ _ _ _ _ A]; [contradiction|discriminate E|]. unfold answers. symmetry. apply filter_all. exact A. }
  assert (Cl : Forall sendable_call (out_calls (iev ptr ++ evs))) by (rewrite calls_app; apply Forall_app; split; assumption).
  assert (Ga : Forall (fun f => good f /\ is_answer f = true) (sent_frames evs)).
  { assert (Z := answer_good sid Sid _ Cl). rewrite (s_answer _ _ _ _ S'), answers_app in Z. apply Forall_app in Z. destruct Z as [Z _]. apply Forall_app in Z. destruct Z as [_ Z]. rewrite <- An in Z. exact Z. }
  assert (Dm : f_sub (p_fl p) = false -> f_sub (r_out i') = false /\ its = [] /\ new = [] /\ sent_frames evs = []).
  { intro Z. destruct (ps_early0 Z) as (E1 & _ & E3 & _). rewrite forallb_at in E3. cbn [forallb] in E3. rewrite !andb_true_iff in E3. destruct E3 as (_ & (E3 & _) & _). destruct it as [|n|c|c|on e| | |n|n|n|sg|sg]; try discriminate E3.
    destruct c; try discriminate E3; cbn [ResponderModel.rstep fstep] in X; rewrite ?E1 in X; cbn [negb andb] in X; try discriminate X. injection X as <- <- <- <-. repeat split. exact E1. }
  unfold step_facts. rewrite qreg_EI, easks_EI, qsent_EI, pev_app, pev_EI, app_nil_r, orb_false_r.
  split; [|split; [reflexivity|split; [discriminate|split; [|split; [intro Z; destruct (Dm Z) as (_ & _ & _ & Q); exact Q|split; [reflexivity|]]]]]].
  - constructor; rewrite ?pev_app, ?pev_EI, ?iev_app, ?iev_EI, ?app_nil_r, ?qsent_app, ?qsent_EI; try assumption.
    + rewrite map_at2. eapply kinv_swap; [exact ps_k0|apply pit_QI_clean|apply pit_QIs_clean|apply pit_QIss_clean].
    + rewrite map_at2, iit_QI, iit_QIs. exact I'.
    + rewrite map_at2, iit_QI, iit_QIs. exact S'.
    + rewrite map_at2, iit_QI, iit_QIs. apply Forall_at. split; [exact F1|]. split; apply Forall_app; split; assumption.
    + intro Z. destruct (Dm Z) as (D1 & D2 & D3 & D4). destruct (ps_early0 Z) as (E1 & E2 & E3 & E4). split; [exact D1|]. split; [exact E2|]. split; [|rewrite E4, D4; reflexivity]. subst its new. cbn [map app]. rewrite app_nil_r. rewrite forallb_at in *. cbn [forallb] in E3. rewrite !andb_true_iff in *. tauto.
    + apply Forall_app. split; [assumption|]. eapply Forall_impl; [|exact Ga]. intros f [Z1 Z2]. right. right. right. split; assumption.
    + rewrite filter_app, ps_ans0, answers_app. reflexivity.
    + rewrite nsum_app, (tok_sent (sent_frames evs)); [rewrite N.add_0_r; exact ps_tok0|]. eapply Forall_impl; [|exact Ga]. intros f [_ Z]. destruct f; discriminate Z || reflexivity.
    + destruct ps_cancel0 as [Z|[Z1 Z2]]; [left; exact Z|right]. split.
      * rewrite forallb_at in Z1. cbn [forallb] in Z1. rewrite !andb_true_iff in Z1. destruct Z1 as (Z3 & (_ & Z5) & Z6). rewrite map_at2, forallb_at, !forallb_app, Z3, Z5, Z6, nocan_QI, nocan_QIs. reflexivity.
      * rewrite existsb_app, Z2. cbn [orb]. apply existsb_none. intros f Hf. rewrite Forall_forall in Ga. destruct (Ga f Hf) as [_ Z]. destruct f; discriminate Z || reflexivity.
    + destruct ps_ask0 as [Z|Z]; [left; apply asking_app; exact Z|]. destruct (begins (RO it)) eqn:Be; [left; apply asking_app; exact (proj2 (B eq_refl))|]. right. rewrite calls_app. apply Forall_app. split; [exact Z|].
      destruct (step_kind sp no_cfg sid 0 _ _ _ _ _ _ X) as [H1 _ _ A I N|c E Z2 _ _ _ _|c e x f E _ _ _ _ _ _ _ _ ->|e f E Fr _ _ _ ->|e E _ _ _ ->]; try (constructor; fail); try (rewrite Z2 in Be; discriminate Be).
      * assert (Q : forall c, In c (out_calls evs) -> it = FDo c).
        { clear -X So. intros c Hc. destruct it as [|n|c0|c0|on e| | |n|n|n|sg|sg]; cbn [ResponderModel.rstep fstep] in X; try discriminate X.
          - destruct c0; repeat match type of X with context [if ?b then _ else _] => destruct b end; try discriminate X; injection X as <- <- <- <-; cbn [map out_calls flat_map app] in Hc; destruct Hc as [<-|[]]; reflexivity.
          - destruct c0; try discriminate X; injection X as <- <- <- <-; destruct Hc.
          - destruct on; [destruct e; try discriminate So; cbn [frame_of] in X|]; injection X as <- <- <- <-; cbn in Hc; destruct Hc.
          - injection X as <- <- <- <-; destruct Hc.
          - injection X as <- <- <- <-; destruct Hc.
          - injection X as <- <- <- <-; destruct Hc.
          - destruct sp; injection X as <- <- <- <-; destruct Hc.
          - destruct (f_req (r_out i)); [|discriminate X]. injection X as <- <- <- <-; destruct Hc.
          - injection X as <- <- <- <-; destruct Hc.
          - injection X as <- <- <- <-; destruct Hc. }
        apply Forall_forall. intros c Hc. rewrite (Q c Hc) in Be. destruct c; try discriminate Be; reflexivity.
      * destruct e; try discriminate Fr; constructor.
  - eapply Forall_impl; [|exact Ga]. intros f [Z1 Z2]. right. right. right. split; assumption.
  - f_equal. rewrite map_at2, (map_at pit). cbn [map].
    destruct (head_step g p _ _ (map (map pit) l) (pit (QI (RO it))) (map pit stack) (map (map pit) rest) (map pit (map QI its)) (map (map pit) (map (map QI) new)) ps_k0 eq_refl (clean_nets _ (pit_QIs_clean its))) as [Hd _].
    rewrite Hd. assert (Z : clean (pit (QI (RO it))) = true) by apply pit_QI_clean. destruct (pit (QI (RO it))); try reflexivity. discriminate Z.
Qed.

(** ** The responder *)
Record rside (r : rst) (rths : list (list ritem)) (rtr : list revent) : Prop := {
  rs_k : kinv gin (rpst r) (map (map rit) rths) (rev_of rtr);
  rs_inv : ResponderProofs.inv r rths rtr;
  rs_sinv : sinv sid r rths rtr;
  rs_fit : Forall (Forall fit) rths;
  rs_calls : Forall sendable_call (out_calls rtr);
  rs_sent : Forall side_frame (sent_frames rtr);
  rs_early : f_sub (r_in r) = false -> forallb (forallb riearly) rths = true /\ Forall (fun f => is_answer f = true) (sent_frames rtr);
  rs_cancel : cancelling (pvs (rev_of rtr)) \/ forallb (forallb nocan) (map (map rit) rths) = true /\ existsb is_cancel (sent_frames rtr) = false }.

Lemma rside_init : forall m, rside responder_create (repeat [RO FUser] (S m)) [].
Proof.
  intro m. assert (E1 : map (map rit) (repeat [RO FUser] (S m)) = repeat [PI FUser] (S m)) by (induction (S m) as [|k IH]; [reflexivity|]; cbn [repeat map]; rewrite IH; reflexivity).
  assert (Q : held (repeat [RO FUser] (S m)) = []) by (clear E1; induction m; [reflexivity|assumption]). constructor; rewrite ?E1.
  - eapply kinv_fl; [apply kinv_init|reflexivity].
  - constructor; rewrite ?Q; try reflexivity; [apply Nat.le_0_l|left; reflexivity|discriminate].
  - apply (sinv_init sid (S m)).
  - clear E1 Q. induction (S m); [constructor|]. constructor; [repeat constructor|assumption].
  - constructor.
  - constructor.
  - intros _. split; [|constructor]. clear E1 Q. induction (S m); [reflexivity|assumption].
  - right. split; [|reflexivity]. clear E1 Q. induction (S m); [reflexivity|assumption].
Qed.

Definition pushable (c : ritem) : Prop := clean (rit c) = true /\ wait c = true /\ holds c = false /\ fit c /\ riearly c = true /\ nocan (rit c) = true.
Lemma rside_push : forall r l u stack rest rtr c, rside r (l ++ (u :: stack) :: rest) rtr -> clean (rit u) = true -> pushable c ->
  rside r (l ++ (c :: u :: stack) :: rest) rtr /\ head_nets (map (map rit) (l ++ (c :: u :: stack) :: rest)) = head_nets (map (map rit) (l ++ (u :: stack) :: rest)).
Proof.
  intros r l u stack rest rtr c [] U (C1 & C2 & C3 & C4 & C5 & C6). split.
  - constructor; try assumption.
    + rewrite map_at in *. cbn [map] in *. assert (Z := kinv_swap gin _ _ _ _ _ _ [rit c; rit u] [] rs_k0). rewrite app_nil_r in Z. apply Z; [exact U|cbn [forallb]; rewrite C1, U; reflexivity|reflexivity].
    + eapply rinv_held; [exact rs_inv0|]. apply held_push. exact C3.
    + apply sinv_call; assumption.
    + rewrite Forall_at in *. destruct rs_fit0 as (F1 & F2 & F3). split; [exact F1|]. split; [constructor; assumption|exact F3].
    + intro Z. destruct (rs_early0 Z) as [E1 E2]. split; [|exact E2]. rewrite forallb_at in *. cbn [forallb] in *. rewrite C5. exact E1.
    + destruct rs_cancel0 as [Z|[Z1 Z2]]; [left; exact Z|right]. split; [|exact Z2]. rewrite map_at in *. cbn [map] in *. rewrite forallb_at in *. cbn [forallb] in *. rewrite C6. exact Z1.
  - rewrite !map_at. cbn [map]. destruct l as [|x l]; [|reflexivity]. cbn [map app]. destruct (rit c); try discriminate C1; destruct (rit u); try discriminate U; reflexivity.
Qed.
Lemma ruser_rit : forall u, is_ruser u = true -> rit u = PI FUser.
Proof. intros [it|it| | |c] U; try discriminate U; destruct it; try discriminate U; reflexivity. Qed.
Lemma rside_return : forall r l u it stack rest rtr, rside r (l ++ (u :: it :: stack) :: rest) rtr -> is_ruser u = true ->
  rside r (l ++ (it :: stack) :: rest) rtr /\ head_nets (map (map rit) (l ++ (it :: stack) :: rest)) = head_nets (map (map rit) (l ++ (u :: it :: stack) :: rest)).
Proof.
  intros r l u it stack rest rtr [] U. assert (U1 := ruser_rit u U). split.
  - constructor; try assumption.
    + rewrite map_at in *. cbn [map] in *. rewrite U1 in rs_k0. apply kinv_return. exact rs_k0.
    + eapply rinv_held; [exact rs_inv0|]. symmetry. apply held_pop. apply user_holds. exact U.
    + eapply sinv_return; eassumption.
    + rewrite Forall_at in *. destruct rs_fit0 as (F1 & F2 & F3). split; [exact F1|]. split; [inversion F2; assumption|exact F3].
    + intro Z. destruct (rs_early0 Z) as [E1 E2]. split; [|exact E2]. rewrite forallb_at in *. cbn [forallb] in *. rewrite !andb_true_iff in *. tauto.
    + destruct rs_cancel0 as [Z|[Z1 Z2]]; [left; exact Z|right]. split; [|exact Z2]. rewrite map_at in *. cbn [map] in *. rewrite forallb_at in *. cbn [forallb] in *. rewrite !andb_true_iff in *. tauto.
  - rewrite !map_at in *. cbn [map] in *. destruct l as [|x l]; [|reflexivity]. cbn [map app] in *. rewrite U1 in *. destruct rs_k0 as [(d & us & E & _ & S & _)]. injection E as <- <-. destruct S as [S|(it' & t & S & Sh & _)]; [|injection S as <- <-; discriminate Sh].
    cbn [forallb] in S. rewrite !andb_true_iff in S. destruct (rit it); try reflexivity. destruct S as (_ & S & _). discriminate S.
Qed.
(** The dispatcher delivers. *)
Lemma rside_net : forall r rest rtr f n, rside r ([RO FUser] :: rest) rtr -> net_call f = Some n ->
  rside r ([RNetDo (rnet_call f); RO FUser] :: rest) rtr /\ head_nets (map (map rit) ([RNetDo (rnet_call f); RO FUser] :: rest)) = [n].
Proof.
  intros r rest rtr f n [] Nc. assert (E : rit (RNetDo (rnet_call f)) = PNetDo n) by (destruct f; cbn [net_call] in Nc; try discriminate Nc; injection Nc as <-; reflexivity). split.
  - constructor; try assumption.
    + cbn [map] in *. rewrite E. apply kinv_net. exact rs_k0.
    + eapply rinv_held; [exact rs_inv0|]. apply (held_push []). reflexivity.
    + apply (sinv_call sid r []); [exact rs_sinv0|reflexivity|reflexivity].
    + inversion rs_fit0; subst. constructor; [constructor; [exact Logic.I|assumption]|assumption].
    + destruct rs_cancel0 as [Z|[Z1 Z2]]; [left; exact Z|right]. split; [|exact Z2]. cbn [map] in *. rewrite E. exact Z1.
  - cbn [map]. rewrite E. reflexivity.
Qed.

Definition rstep_facts (r : rst) (rths rths' : list (list ritem)) (rtr : list revent) (r' : rst) (evs : list revent) : Prop :=
  rside r' rths' (rtr ++ evs) /\ Forall side_frame (sent_frames evs) /\ (f_sub (r_in r') = false -> f_sub (r_in r) = false) /\
  nets (rev_of (rtr ++ evs)) ++ head_nets (map (map rit) rths') = nets (rev_of rtr) ++ head_nets (map (map rit) rths).

Lemma rside_step : forall ini r l it stack rest rtr r' its new evs, rside r (l ++ (it :: stack) :: rest) rtr -> rstep sr gin sid ini r it = Some (r', its, new, evs) ->
  (begins it = true -> idle (l ++ (it :: stack) :: rest) = true) -> rstep_facts r (l ++ (it :: stack) :: rest) (l ++ (its ++ stack) :: rest ++ new) rtr r' evs.
Proof.
  intros ini r l it stack rest rtr r' its new evs [] X B.
  assert (So : sound it = true). { assert (Z := s_sound _ _ _ _ rs_sinv0). rewrite forallb_at in Z. cbn [forallb] in Z. rewrite !andb_true_iff in Z. tauto. }
  assert (Fi := rs_fit0). apply Forall_at in Fi. destruct Fi as (F1 & F2 & F3). inversion F2 as [|? ? F4 F5]; subst.
  destruct (r_fit sr gin sid ini _ _ _ _ _ _ F4 So X) as (R1 & R2 & R3 & _).
  assert (I' := inv_step sr gin sid ini _ _ _ _ _ _ _ _ _ _ rs_inv0 X B). assert (S' := sinv_step sr gin sid ini _ _ _ _ _ _ _ _ _ _ rs_sinv0 X B (v_one _ _ _ I')).
  assert (Cl : Forall sendable_call (out_calls (rtr ++ evs))) by (rewrite calls_app; apply Forall_app; split; assumption).
  assert (Ga : Forall (fun f => good f /\ is_answer f = true) (answers evs)).
  { assert (Z := answer_good sid Sid _ Cl). rewrite (s_answer _ _ _ _ S'), answers_app in Z. apply Forall_app in Z. destruct Z as [Z _]. apply Forall_app in Z. tauto. }
  assert (K' := rkinv_step sr gin sid ini _ _ _ _ _ _ _ _ _ _ rs_k0 X).
  assert (Kx := rs_k0). rewrite map_at in Kx. cbn [map] in Kx.
  assert (Ec : f_sub (r_in r) = false -> riearly it = true). { intro Z. destruct (rs_early0 Z) as [E _]. rewrite forallb_at in E. cbn [forallb] in E. rewrite !andb_true_iff in E. tauto. }
  assert (Main : Forall side_frame (sent_frames evs) /\ (f_sub (r_in r') = false -> f_sub (r_in r) = false /\ forallb riearly its = true /\ forallb (forallb riearly) new = true /\ Forall (fun f => is_answer f = true) (sent_frames evs)) /\
    (nocan (rit it) = true -> cancelling (pvs (rev_of evs)) \/ forallb nocan (map rit its) = true /\ forallb (forallb nocan) (map (map rit) new) = true /\ existsb is_cancel (sent_frames evs) = false) /\
    forallb not_net (map rit its) = true /\ nets (rev_of evs) = match rit it with PNetDo n => [n] | _ => [] end).
  { assert (Ne : forall x, forallb no_in x = true -> forallb riearly x = true). { induction x as [|y x IH]; [reflexivity|]. cbn [forallb]. intro Z. apply andb_true_iff in Z. destruct Z as [Z1 Z2]. rewrite (IH Z2), andb_true_r. destruct y; try reflexivity. discriminate Z1. }
    assert (Nc : forall x, forallb no_in x = true -> forallb nocan (map rit x) = true). { induction x as [|y x IH]; [reflexivity|]. cbn [forallb map]. intro Z. apply andb_true_iff in Z. destruct Z as [Z1 Z2]. rewrite (IH Z2), andb_true_r. destruct y as [y|y| | |c]; try reflexivity; [cbn [rit]; destruct (is_ruser (RO y)); reflexivity|discriminate Z1|destruct c; reflexivity]. }
    destruct (rstep_input _ _ _ _ _ _ _ _ _ _ X) as [evs' Hi P Pv Nt Ps Oc _ _|n c -> Ri Fs -> -> -> -> Re|No C Ei Ci Cn Nj Nk Pv Nt An].
    - destruct (any_step sr gin sid [] [] _ _ _ _ _ _ P (kinv_item _ _ _ _ _ _ _ Kx)) as [_ Fs]. destruct (step_no_net sr gin sid [] [] _ _ _ _ _ _ P) as [Nn Nv]. assert (Sn := pstep_sends _ _ _ _ _ _ _ _ _ P). cbn [rpst p_fl p_first] in *.
      split; [|split; [|split; [|split; [exact Nn|congruence]]]].
      + rewrite <- Ps. destruct Sn as [S1 S2|n _ S1 Q _ _ _ _ _ _ _ _|n _ S1 _ _|_ S1 _]; [rewrite S1; constructor|discriminate Q|rewrite S1; constructor; [|constructor]; left; exists n; reflexivity|rewrite S1; constructor; [|constructor]; right; left; reflexivity].
      + intro Z. rewrite Fs in Z. apply orb_false_iff in Z. destruct Z as [Z1 Z2]. split; [exact Z1|]. assert (Er := Ec Z1). destruct it as [it|it| | |c]; try contradiction. cbn [riearly rit] in *.
        destruct (early_step sr gin sid [] [] (rpst r) _ _ _ _ _ Er Z1 P) as [Z|(_ & Z3 & Z4 & Z5 & _)]; [cbn [rpst p_fl] in Z; rewrite Fs, Z1, Z2 in Z; discriminate Z|]. apply map_eq_nil in Z3, Z4. subst its new. split; [reflexivity|]. split; [reflexivity|]. rewrite <- Ps, Z5. constructor.
      + intro Hn. destruct (pstep_nocan _ _ _ _ _ _ _ _ _ P) as [Z|[Z1 Z2]]; [left; unfold cancelling; rewrite <- Pv; exact Z|right]. split; [exact Z1|]. split; [exact Z2|]. rewrite <- Ps. destruct Sn as [S1 S2|n _ S1 _ _ _ _ _ _ _ _ _|n _ S1 _ _|Ei S1 _]; try (rewrite S1; reflexivity). rewrite Ei in Hn. discriminate Hn.
    - cbn [sent_frames flat_map]. split; [constructor|]. split; [intro Z; rewrite Fs in Z; discriminate Z|]. split; [intros _; right; repeat split; destruct n; reflexivity|]. split; [destruct n; reflexivity|]. rewrite Re, Ri. reflexivity.
    - assert (Sa : sent_frames evs = answers evs) by (unfold answers; symmetry; apply filter_all; exact An).
      split; [rewrite Sa; eapply Forall_impl; [|exact Ga]; intros f [Z1 Z2]; right; right; split; assumption|]. split; [|split; [|split; [apply clean_nets; exact Ci|rewrite Nt; destruct (rit it); try reflexivity; discriminate C]]].
      + intro Z. rewrite Ei in Z. split; [exact Z|]. split; [apply Ne; exact Nj|]. split; [|apply Forall_forall; exact An]. revert Nk Ne. clear. intros Nk Ne. induction new as [|x l IH]; [reflexivity|]. cbn [forallb] in *. apply andb_true_iff in Nk. destruct Nk as [N1 N2]. rewrite (Ne x N1). exact (IH N2).
      + intros _. right. split; [apply Nc; exact Nj|]. split.
        * revert Nk Nc. clear. intros Nk Nc. induction new as [|x l IH]; [reflexivity|]. cbn [forallb map] in *. apply andb_true_iff in Nk. destruct Nk as [N1 N2]. rewrite (Nc x N1). exact (IH N2).
        * apply existsb_none. intros f Hf. assert (Z := An f Hf). destruct f; discriminate Z || reflexivity. }
  destruct Main as (M1 & M2 & M3 & M4 & M5). split; [|split; [exact M1|split; [intro Z; exact (proj1 (M2 Z))|]]].
  - constructor; try assumption.
    + apply Forall_at. split; [exact F1|]. split; apply Forall_app; split; assumption.
    + rewrite sent_app. apply Forall_app. split; assumption.
    + intro Z. destruct (M2 Z) as (Z1 & Z2 & Z3 & Z4). destruct (rs_early0 Z1) as [E1 E2]. split; [|rewrite sent_app; apply Forall_app; split; assumption]. rewrite forallb_at in *. cbn [forallb] in E1. rewrite !forallb_app, Z2, Z3. rewrite !andb_true_iff in *. tauto.
    + rewrite rev_app, pvs_app, sent_app, existsb_app. destruct rs_cancel0 as [Z|[Z1 Z2]]; [left; apply cancelling_app; left; exact Z|]. rewrite map_at in Z1. cbn [map] in Z1. rewrite forallb_at in Z1. cbn [forallb] in Z1. rewrite !andb_true_iff in Z1. destruct Z1 as (Z3 & (Z4 & Z5) & Z6).
      destruct (M3 Z4) as [C|(C1 & C2 & C3)]; [left; apply cancelling_app; right; exact C|]. right. rewrite map_at2, forallb_at, !forallb_app, Z3, Z5, Z6, C1, C2, Z2, C3. split; reflexivity.
  - rewrite rev_app, nets_app, M5, map_at2, map_at. cbn [map]. destruct (head_step gin _ _ _ (map (map rit) l) (rit it) (map rit stack) (map (map rit) rest) (map rit its) (map (map rit) new) Kx eq_refl M4) as [Hd _]. rewrite Hd, <- app_assoc. reflexivity.
Qed.
End Sides.
