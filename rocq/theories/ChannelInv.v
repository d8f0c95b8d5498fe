(** The invariant of a channel call and what its moves preserve. *)
From Coq Require Import List NArith ZArith Lia Bool ZifyBool ZifyNat ZifyN.
From Verif Require Import Base FramesModel FramesSpec InvokeModel MonoModel FluxModel FluxSpec ProxyModel ProxySpec DispatchModel DispatchSpec ResponderModel ResponderSpec ResponderProofs ResponderSerial.
From Verif Require Import StreamModel StreamSpec StreamSides StreamWire StreamInv StreamProofs ChannelModel ChannelSpec ChannelSides ChannelWire ChannelEnds ChannelLocal.
From Verif Require CallModel CallSpec.
Import ListNotations.
Open Scope N_scope.

Section Sys.
Context {H : Type}.
Context (wp wr : site) (tp tr : ikind -> list (option H)) (sp sr : bool) (g gin : fcfg) (sid : N) (data md : bytes).
Context (Sid : sid < 2^31) (Snd : CallSpec.sendable data md) (Few : few tr) (K : option H) (V : cverdict md tr K).
Notation req := (channel_request sid data md).
Notation good := (good sid).
Notation refusal := (refusal sid md).
Notation act := (act H unit).
Notation chan_frame := (chan_frame sid data md).
Notation side_frame := (side_frame sid).
Notation pside := (pside g sid data md).
Notation rside := (rside gin sid).

Definition qopened (ptr : list qevent) (n : N) : Prop := exists r, In (FramesModel.FRequest r) (qsent ptr) /\ rf_initial_n r = n.
Definition crun_ok (ptr : list qevent) (h : H) (d m : bytes) (n : N) : Prop := K = Some h /\ d = data /\ m = handler_metadata wr RC md /\ qopened ptr n.
Definition cact_ok (ptr : list qevent) (a : act) : Prop :=
  match a with
  | ASend f => K = None /\ f = refusal
  | ARun k h _ d m _ n => k = RC /\ crun_ok ptr h d m n
  | ACall _ _ | ARemove _ | ARegister _ => True
  | _ => False
  end.
Definition ctask_ok (ptr : list qevent) (t : task H) : Prop :=
  match t with
  | TSend f => K = None /\ f = refusal
  | TRegister h d m n | TStart h d m n => crun_ok ptr h d m n
  | TRequest _ => True
  end.
Definition cruns_ok (ptr : list qevent) (l : list (H * bytes * bytes * N)) : Prop := Forall (fun x => match x with (h, d, m, n) => crun_ok ptr h d m n end) l.
Definition opening (a : act) : bool := match a with ACall _ _ | ARemove _ => false | _ => true end.
Definition asks_n (a : act) : bool := match a with ACall _ (DoRequest _) => true | _ => false end.
Definition tst (t : task H) : N := match t with TStart _ _ _ _ => 1 | _ => 0 end.

Record cinv (p : pst) (i : rst) (pths : list (list qitem)) (ptr : list qevent) (ptodo : list act) (preg : bool) (ptasks : list N) (up dn : line) (gone pre post : list frame) (e : bool)
            (r : rst) (rths : list (list ritem)) (rtr : list revent) (rtodo : list act) (rreg : bool) (tasks : list (task H)) (runs : list (H * bytes * bytes * N)) : Prop := {
  y_ps : pside p i pths ptr;
  y_rs : rside r rths rtr;
  y_pd : exists cs rem, ptodo = map (ACall tt) cs ++ (if rem : bool then [ARemove sid] else []) /\ nets (pev ptr) ++ head_nets (map (map pit) pths) ++ flat_map netc cs = effects gone /\
         preg = f_sub (p_fl p) && (negb (ended gone) || rem) /\ (rem = true -> ended gone = true);
  y_rd : exists acts cs rem, rtodo = acts ++ map (ACall tt) cs ++ (if rem : bool then [ARemove sid] else []) /\ (acts = [] \/ cs = [] /\ rem = false) /\ forallb opening acts = true /\
         (e = false -> cs = [] /\ rem = false) /\ nets (rev_of rtr) ++ head_nets (map (map rit) rths) ++ flat_map netc cs = effects post /\
         rreg = e && (negb (ended post) || rem) /\ (rem = true -> ended post = true);
  y_dn : strangers sid dn /\ Forall side_frame (ours dn);
  y_up : strangers sid up;
  y_mid : pre ++ post ++ ours up = qsent ptr;
  y_pre : Forall (fun f => is_answer f = false) pre;
  y_reg : (if e then 1 else 0) = nsum tst tasks + N.of_nat (length runs);
  y_post : e = false -> post = [];
  y_todo : Forall (cact_ok ptr) rtodo;
  y_tasks : Forall (ctask_ok ptr) tasks;
  y_runs : cruns_ok ptr runs;
  y_rq : runs = [] -> f_sub (r_out r) = false /\ f_sub (r_in r) = false /\ r_sub r = false /\ forallb (forallb rearly) rths = true /\ sent_frames rtr = [];
  y_link : match K with Some _ => gone ++ ours dn = sent_frames rtr | None => Forall (eq refusal) (gone ++ ours dn) end;
  y_cause : f_sub (r_in r) = false -> ptasks = [] /\ forallb (fun a => negb (asks_n a)) ptodo = true /\ easks ptr = [];
  y_dorm : f_sub (p_fl p) = false -> (ours up = [] /\ ours dn = [] /\ gone = [] /\ ptodo = [] /\ ptasks = []) /\ rtodo = [] /\ tasks = [] /\ runs = [] /\ pre = [] /\ post = [];
  y_tok : nsum tok (qsent ptr) = nsum tok (ours up) + nsum toka rtodo + nsum tokt tasks + N.of_nat (match K with Some _ => length runs | None => length (gone ++ ours dn) end);
  y_out : nsum credit (ours up) + nsum cra rtodo + nsum crt tasks + nsum (nsum crr) rths + nsum run_n runs + nsum idn (net_requests rtr) <= nsum credit (qsent ptr);
  y_in : nsum credit (ours dn) + nsum cra ptodo + nsum idn ptasks + nsum idn (easks ptr) <= nsum credit (sent_frames rtr) }.

Lemma cinv_init : forall n m, cinv proxy_create responder_create (repeat [QP (PI FUser)] (S n)) [] [] false [] [] [] [] [] [] false responder_create (repeat [RO FUser] (S m)) [] [] false [] [].
Proof.
  intros n m. constructor.
  - apply pside_init.
  - apply rside_init.
  - exists [], false. repeat split; discriminate.
  - exists [], [], false. repeat split; try (left; reflexivity); discriminate.
  - split; constructor.
  - constructor.
  - reflexivity.
  - constructor.
  - reflexivity.
  - reflexivity.
  - constructor.
  - constructor.
  - constructor.
  - intros _. repeat split. induction (S m); [reflexivity|assumption].
  - destruct K; [reflexivity|constructor].
  - repeat split.
  - repeat split.
  - destruct K; reflexivity.
  - assert (Z : nsum (nsum crr) (repeat [RO FUser] (S m)) = 0) by (induction (S m) as [|k IH]; [reflexivity|cbn [repeat]; rewrite nsum_cons, IH; reflexivity]). rewrite Z. apply N.le_refl.
  - apply N.le_refl.
Qed.

(** ** Growing traces *)
Lemma qopened_mono : forall ptr evs n, qopened ptr n -> qopened (ptr ++ evs) n.
Proof. intros ptr evs n (r & I & E). exists r. split; [|exact E]. rewrite qsent_app. apply in_or_app. left; exact I. Qed.
Lemma crun_mono : forall ptr evs h d m n, crun_ok ptr h d m n -> crun_ok (ptr ++ evs) h d m n.
Proof. intros ptr evs h d m n (A & B & C & D). repeat split; try assumption. apply qopened_mono. exact D. Qed.
Lemma cact_mono : forall ptr evs l, Forall (cact_ok ptr) l -> Forall (cact_ok (ptr ++ evs)) l.
Proof. intros ptr evs l F. eapply Forall_impl; [|exact F]. intros a A. destruct a; try exact A. destruct A as [A B]. split; [exact A|]. apply crun_mono. exact B. Qed.
Lemma ctask_mono : forall ptr evs l, Forall (ctask_ok ptr) l -> Forall (ctask_ok (ptr ++ evs)) l.
Proof. intros ptr evs l F. eapply Forall_impl; [|exact F]. intros a A. destruct a; try exact A; apply crun_mono; exact A. Qed.
Lemma cruns_mono : forall ptr evs l, cruns_ok ptr l -> cruns_ok (ptr ++ evs) l.
Proof. intros ptr evs l F. eapply Forall_impl; [|exact F]. intros [[[h d] m] n] A. apply crun_mono. exact A. Qed.

(** ** The requester *)
Section Requester.
Context (dn : line) (gone pre post : list frame) (e : bool) (r : rst) (rths : list (list ritem)) (rtr : list revent) (rtodo : list act) (rreg : bool) (tasks : list (task H)) (runs : list (H * bytes * bytes * N)).
Notation inv p i pths ptr ptodo preg ptasks up := (cinv p i pths ptr ptodo preg ptasks up dn gone pre post e r rths rtr rtodo rreg tasks runs).

Lemma n_pths : forall p i pths pths' ptr ptodo preg ptasks up, inv p i pths ptr ptodo preg ptasks up -> pside p i pths' ptr -> head_nets (map (map pit) pths') = head_nets (map (map pit) pths) -> inv p i pths' ptr ptodo preg ptasks up.
Proof. intros p i pths pths' ptr ptodo preg ptasks up [] P E. constructor; try assumption. rewrite E. exact y_pd0. Qed.

Lemma n_pstep : forall p i l it stack rest ptr ptodo preg ptasks up p' i' its new evs, inv p i (l ++ (it :: stack) :: rest) ptr ptodo preg ptasks up -> qstep sp g sid data md p i it = Some (p', i', its, new, evs) ->
  (forall x, it = QI x -> begins x = true -> qidle (l ++ (it :: stack) :: rest) = true /\ asking ptr) ->
  Forall good (qsent evs) /\ inv p' i' (l ++ (its ++ stack) :: rest ++ new) (ptr ++ evs) ptodo (qregisters evs || preg) ptasks (up ++ map inl (qsent evs)).
Proof.
  intros p i l it stack rest ptr ptodo preg ptasks up p' i' its new evs [] X B.
  assert (F : step_facts g sid data md p i (l ++ (it :: stack) :: rest) (l ++ (its ++ stack) :: rest ++ new) ptr p' i' evs).
  { destruct it as [it|it].
    - cbn [qstep] in X. destruct (pstep sp g req false p it) as [[[[p1 its1] new1] evs1]|] eqn:Ps; [|discriminate X]. injection X as <- <- <- <- <-. eapply (pside_P sp); eassumption.
    - destruct it as [it|it| | |c]; try discriminate X. cbn [qstep] in X. destruct (rstep sp no_cfg sid 0 i (RO it)) as [[[[i1 its1] new1] evs1]|] eqn:Rs; [|discriminate X]. injection X as <- <- <- <- <-. eapply (pside_I sp); try eassumption. exact (B (RO it) eq_refl). }
  destruct F as (F1 & F2 & F3 & F4 & F5 & F6 & F7). split; [eapply Forall_impl; [|exact F4]; intros f; apply chan_good; assumption|]. constructor; try assumption.
  - destruct y_pd0 as (cs & rem & T & E & R & M). exists cs, rem. split; [exact T|]. split; [rewrite app_assoc, F7, <- app_assoc; exact E|]. split; [|exact M]. rewrite R, F2. destruct (qregisters evs) eqn:Q; [|rewrite orb_false_r; reflexivity].
    destruct (y_dorm0 (F3 eq_refl)) as ((_ & _ & -> & _) & _). rewrite orb_true_r. reflexivity.
  - apply strangers_inl. exact y_up0.
  - rewrite ours_app, ours_inl, qsent_app, <- y_mid0, <- !app_assoc. reflexivity.
  - apply cact_mono; assumption.
  - apply ctask_mono; assumption.
  - apply cruns_mono; assumption.
  - intro Z. rewrite easks_app, F6, app_nil_r. exact (y_cause0 Z).
  - intro Z. rewrite (F5 Z). cbn [map]. rewrite app_nil_r. apply y_dorm0. rewrite F2 in Z. apply orb_false_iff in Z. tauto.
  - rewrite qsent_app, ours_app, ours_inl, !nsum_app, y_tok0. lia.
  - rewrite qsent_app, ours_app, ours_inl, !nsum_app. lia.
  - rewrite easks_app, F6, app_nil_r. exact y_in0.
Qed.

Lemma n_ptask : forall p i l u stack rest ptr ptodo preg a n b up, inv p i (l ++ (u :: stack) :: rest) ptr ptodo preg (a ++ n :: b) up -> is_quser u = true ->
  inv p i (l ++ (QI (RO (FDo (FRequest (Z.of_N n)))) :: u :: stack) :: rest) (ptr ++ [EAsk n]) ptodo preg (a ++ b) up.
Proof.
  intros p i l u stack rest ptr ptodo preg a n b up [] U. destruct (pside_push g sid data md _ _ _ _ _ _ _ (QI (RO (FDo (FRequest (Z.of_N n))))) y_ps0 U) as [P E]; [right; eauto|exact Logic.I|].
  assert (Ev : pev (ptr ++ [EAsk n]) = pev ptr) by (rewrite pev_app; apply app_nil_r). assert (Es : qsent (ptr ++ [EAsk n]) = qsent ptr) by (rewrite qsent_app; apply app_nil_r).
  constructor; rewrite ?Es; try assumption.
  - apply pside_asked. exact P.
  - rewrite E, Ev. exact y_pd0.
  - apply cact_mono; assumption.
  - apply ctask_mono; assumption.
  - apply cruns_mono; assumption.
  - intro Z. destruct (y_cause0 Z) as (Z1 & _). destruct a; discriminate Z1.
  - intro Z. destruct (y_dorm0 Z) as ((_ & _ & _ & _ & Z1) & _). destruct a; discriminate Z1.
  - rewrite easks_app. cbn [easks flat_map app]. rewrite !nsum_app, !nsum_cons, nsum_nil in *. unfold idn in *. lia.
Qed.

(** The dispatcher goes on. *)
Lemma n_pact_ask : forall p i rest ptr s n todo preg ptasks up, inv p i ([QP (PI FUser)] :: rest) ptr (ACall s (DoRequest n) :: todo) preg ptasks up -> inv p i ([QP (PI FUser)] :: rest) ptr todo preg (ptasks ++ [n]) up.
Proof.
  intros p i rest ptr s n todo preg ptasks up []. constructor; try assumption.
  - destruct y_pd0 as (cs & rem & T & E & R & M). destruct cs as [|c cs]; [destruct rem; discriminate T|]. cbn [map app] in T. injection T as _ <- ->. exists cs, rem. split; [reflexivity|]. split; [exact E|]. split; assumption.
  - intro Z. destruct (y_cause0 Z) as (_ & Z1 & _). discriminate Z1.
  - intro Z. destruct (y_dorm0 Z) as ((_ & _ & _ & Z1 & _) & _). discriminate Z1.
  - rewrite nsum_cons in y_in0. cbn [cra] in y_in0. rewrite nsum_app, nsum_cons, nsum_nil. unfold idn in *. lia.
Qed.
Lemma n_pact_call : forall p i rest ptr s f n todo preg ptasks up, inv p i ([QP (PI FUser)] :: rest) ptr (ACall s f :: todo) preg ptasks up -> net_call f = Some n ->
  inv p i ([QP (PNetDo n); QP (PI FUser)] :: rest) ptr todo preg ptasks up.
Proof.
  intros p i rest ptr s f n todo preg ptasks up [] Nc.
  assert (Sb : f_sub (p_fl p) = true). { destruct (f_sub (p_fl p)) eqn:Z; [reflexivity|]. destruct (y_dorm0 eq_refl) as ((_ & _ & _ & Z1 & _) & _). discriminate Z1. }
  constructor; try assumption.
  - destruct y_ps0. constructor; try assumption.
    + cbn [map pit] in *. apply kinv_net. exact ps_k.
    + eapply rinv_held; [exact ps_inv|]. apply (held_push []). reflexivity.
    + apply (sinv_call sid i []); [exact ps_sinv|reflexivity|reflexivity].
    + cbn [map] in *. inversion ps_fit; subst. constructor; [constructor; [exact Logic.I|assumption]|assumption].
    + intro Z. congruence.
  - destruct y_pd0 as (cs & rem & T & E & R & M). destruct cs as [|c cs]; [destruct rem; discriminate T|]. cbn [map app] in T. injection T as _ <- ->. exists cs, rem. split; [reflexivity|]. split; [|split; assumption].
    rewrite <- E. cbn [map pit head_nets flat_map app]. unfold netc at 2. rewrite Nc. reflexivity.
  - intro Z. destruct (y_cause0 Z) as (Z1 & Z2 & Z3). split; [exact Z1|]. split; [|exact Z3]. cbn [forallb] in Z2. apply andb_true_iff in Z2. tauto.
  - intro Z. congruence.
  - rewrite nsum_cons in y_in0. lia.
Qed.
Lemma n_pact_remove : forall p i pths ptr j todo preg ptasks up, inv p i pths ptr (ARemove j :: todo) preg ptasks up -> inv p i pths ptr todo false ptasks up.
Proof.
  intros p i pths ptr j todo preg ptasks up []. constructor; try assumption.
  - destruct y_pd0 as (cs & rem & T & E & R & M). destruct cs as [|c cs]; [|discriminate T]. destruct rem; [|discriminate T]. injection T as -> ->. exists [], false. split; [reflexivity|]. split; [exact E|]. split; [|discriminate]. rewrite (M eq_refl), andb_false_r. reflexivity.
  - intro Z. destruct (y_dorm0 Z) as ((_ & _ & _ & Z1 & _) & _). discriminate Z1.
Qed.
End Requester.

(** A frame is received. *)
Lemma side_cases : forall f, side_frame f -> credit f = nsum (@cra H) (doing sid f) /\ (forallb (fun a => negb (asks_n a)) (doing sid f) = true \/ exists n, f = FRequestN sid n) /\ tok f = 0 /\ forall ptr, Forall (cact_ok ptr) (doing sid f) /\ nsum toka (doing (H:=H) sid f) = 0.
Proof.
  intros f U. assert (Dn : forall ptr cs rem, Forall (cact_ok ptr) (map (ACall tt) cs ++ (if rem : bool then [ARemove sid] else [])) /\ nsum toka (map (ACall (H:=H) tt) cs ++ (if rem then [ARemove sid] else [])) = 0).
  { intros ptr cs rem. induction cs as [|c cs [IH1 IH2]]; [destruct rem; split; repeat constructor|]. cbn [map app]. rewrite nsum_cons, IH2. split; [constructor; [exact Logic.I|exact IH1]|reflexivity]. }
  destruct U as [[n E]|[E|[G A]]]; [subst f|subst f|].
  - split; [cbn; lia|]. split; [right; eauto|]. split; [reflexivity|]. intro ptr. apply Dn.
  - split; [reflexivity|]. split; [left; reflexivity|]. split; [reflexivity|]. intro ptr. apply Dn.
  - destruct f as [| |i0 code e0|pf|r0]; try discriminate A.
    + split; [reflexivity|]. split; [left; reflexivity|]. split; [reflexivity|]. intro ptr. apply Dn.
    + destruct pf as [i0 m0 d0 fo co ne]. unfold doing. split; [|split; [left|split; [reflexivity|intro ptr; apply Dn]]]; destruct co, ne; reflexivity.
Qed.
Lemma n_precv : forall p i pths ptr preg ptasks up f dn gone pre post e r rths rtr rtodo rreg tasks runs, cinv p i pths ptr [] preg ptasks up (inl f :: dn) gone pre post e r rths rtr rtodo rreg tasks runs -> head_nets (map (map pit) pths) = [] ->
  side_frame f /\ cinv p i pths ptr (if preg then doing sid f else []) preg ptasks up dn (gone ++ [f]) pre post e r rths rtr rtodo rreg tasks runs.
Proof.
  intros p i pths ptr preg ptasks up f dn gone pre post e r rths rtr rtodo rreg tasks runs [] Hn. destruct y_dn0 as [A B]. cbn [ours flat_map app] in *. fold (ours dn) in *. inversion B as [|? ? Sf B']; subst.
  split; [exact Sf|]. destruct (side_cases f Sf) as (C1 & C2 & C3 & _). constructor; try assumption.
  - destruct y_pd0 as (cs & rem & T & E & R & M). assert (cs = [] /\ rem = false) as [-> ->].
    { destruct cs; [|discriminate T]. destruct rem; [discriminate T|]. split; reflexivity. }
    cbn [flat_map] in E. rewrite app_nil_r in E. rewrite orb_false_r in R. destruct (f_sub (p_fl p)) eqn:Fp; [|destruct (y_dorm0 eq_refl) as ((_ & Z & _) & _); discriminate Z].
    cbn [andb] in R. destruct (ended gone) eqn:Eg; subst preg.
    + exists [], false. split; [reflexivity|]. cbn [negb]. split; [cbn [flat_map]; rewrite app_nil_r, E, effects_app, Eg, app_nil_r; reflexivity|]. split; [rewrite ended_app, Eg; reflexivity|discriminate].
    + cbn [negb]. exists (asks f), (ends_stream f). split; [reflexivity|]. split; [rewrite app_assoc, E, effects_app, Eg; f_equal; unfold effects, fx; destruct (ends_stream f); rewrite app_nil_r; reflexivity|].
      split; [rewrite ended_app, Eg; cbn [ended existsb orb]; rewrite orb_false_r; destruct (ends_stream f); reflexivity|]. intro Z. rewrite ended_app. cbn [ended existsb]. rewrite Z. rewrite orb_true_r. reflexivity.
  - split; [inversion A; assumption|exact B'].
  - rewrite <- app_assoc. exact y_link0.
  - intro Z. destruct (y_cause0 Z) as (Z1 & _ & Z3). split; [exact Z1|]. split; [|exact Z3]. destruct preg; [|reflexivity]. destruct C2 as [C2|[n ->]]; [exact C2|]. exfalso. destruct K as [h|].
    + destruct y_rs0. destruct (rs_early Z) as [_ Z4]. rewrite <- y_link0 in Z4. apply Forall_app in Z4. destruct Z4 as [_ Z4]. inversion Z4 as [|? ? Z5 _]. discriminate Z5.
    + apply Forall_app in y_link0. destruct y_link0 as [_ Z4]. inversion Z4 as [|? ? Z5 _]. discriminate Z5.
  - intro Z. destruct (y_dorm0 Z) as ((_ & Y & _) & _). discriminate Y.
  - rewrite <- app_assoc. exact y_tok0.
  - rewrite nsum_cons, nsum_nil in y_in0. destruct preg; [rewrite <- C1|rewrite nsum_nil]; lia.
Qed.
Lemma n_pskip : forall p i pths ptr ptodo preg ptasks up b dn gone pre post e r rths rtr rtodo rreg tasks runs, cinv p i pths ptr ptodo preg ptasks up (inr b :: dn) gone pre post e r rths rtr rtodo rreg tasks runs ->
  foreign sid b /\ cinv p i pths ptr ptodo preg ptasks up dn gone pre post e r rths rtr rtodo rreg tasks runs.
Proof. intros p i pths ptr ptodo preg ptasks up b dn gone pre post e r rths rtr rtodo rreg tasks runs []. destruct y_dn0 as [A B]. split; [inversion A; assumption|]. constructor; try assumption. split; [inversion A; assumption|exact B]. Qed.

(** ** The responder *)
Section Responder.
Context (p : pst) (i : rst) (pths : list (list qitem)) (ptr : list qevent) (ptodo : list act) (preg : bool) (ptasks : list N) (gone : list frame).
Notation inv up dn pre post e r rths rtr rtodo rreg tasks runs := (cinv p i pths ptr ptodo preg ptasks up dn gone pre post e r rths rtr rtodo rreg tasks runs).

Lemma n_rths : forall up dn pre post e r rths rths' rtr rtodo rreg tasks runs, inv up dn pre post e r rths rtr rtodo rreg tasks runs -> rside r rths' rtr -> head_nets (map (map rit) rths') = head_nets (map (map rit) rths) ->
  (runs = [] -> forallb (forallb rearly) rths = true -> forallb (forallb rearly) rths' = true) -> nsum (nsum crr) rths' <= nsum (nsum crr) rths -> inv up dn pre post e r rths' rtr rtodo rreg tasks runs.
Proof.
  intros up dn pre post e r rths rths' rtr rtodo rreg tasks runs [] P E Q C. constructor; try assumption.
  - rewrite E. exact y_rd0.
  - intro Z. destruct (y_rq0 Z) as (Z1 & Z2 & Z3 & Z4 & Z5). auto 10.
  - lia.
Qed.

Lemma n_rstep : forall ini up dn pre post e r l it stack rest rtr rtodo rreg tasks runs r' its new evs, inv up dn pre post e r (l ++ (it :: stack) :: rest) rtr rtodo rreg tasks runs -> rstep sr gin sid ini r it = Some (r', its, new, evs) ->
  (begins it = true -> idle (l ++ (it :: stack) :: rest) = true) ->
  Forall good (sent_frames evs) /\ inv up (dn ++ map inl (sent_frames evs)) pre post e r' (l ++ (its ++ stack) :: rest ++ new) (rtr ++ evs) rtodo rreg tasks runs.
Proof.
  intros ini up dn pre post e r l it stack rest rtr rtodo rreg tasks runs r' its new evs [] X B. destruct (rside_step sr gin sid Sid _ _ _ _ _ _ _ _ _ _ _ y_rs0 X B) as (F1 & F2 & F3 & F4).
  assert (So : sound it = true). { destruct y_rs0. assert (Z := s_sound _ _ _ _ rs_sinv). rewrite forallb_at in Z. cbn [forallb] in Z. rewrite !andb_true_iff in Z. tauto. }
  assert (Fi : fit it). { destruct y_rs0. apply Forall_at in rs_fit. destruct rs_fit as (_ & Z & _). inversion Z; assumption. }
  destruct (r_fit sr gin sid ini _ _ _ _ _ _ Fi So X) as (_ & _ & _ & R8 & R9 & R10).
  assert (Qs : runs = [] -> f_sub (r_out r') = false /\ f_sub (r_in r') = false /\ r_sub r' = false /\ forallb (forallb rearly) (l ++ (its ++ stack) :: rest ++ new) = true /\ sent_frames evs = []).
  { intro E. destruct (y_rq0 E) as (Q1 & Q2 & Q3 & Q4 & Q5). rewrite forallb_at in Q4. cbn [forallb] in Q4. rewrite !andb_true_iff in Q4. destruct Q4 as (QL & (QI & QS) & QR).
    destruct (rearly_step sr gin sid ini r it r' its new evs QI Q1 Q2 Q3 X) as (Z1 & Z2 & -> & -> & Z3). split; [exact Z1|]. split; [|split; [exact Z2|split; [|exact Z3]]].
    - clear -X QI Q1 Q2 Q3. destruct it as [it|it| | |c]; try discriminate QI; [|destruct c; cbn [ResponderModel.rstep] in X; rewrite ?Q2, ?Q3 in X; discriminate X]. destruct it as [|n|c|c|on e0| | |n|n|n|sg|sg]; try discriminate QI; try discriminate X.
      destruct c; try discriminate QI; cbn [ResponderModel.rstep fstep] in X; rewrite ?Q1 in X; cbn [negb andb] in X; try discriminate X; injection X as <- _. exact Q2.
    - rewrite forallb_at. cbn [app]. rewrite app_nil_r, QL, QS, QR. reflexivity. }
  assert (Kn : K = None -> sent_frames evs = []).
  { intro E. assert (runs = []) as Er. { destruct runs as [|[[[h d] m] n] q]; [reflexivity|]. inversion y_runs0 as [|? ? Z _]; subst. destruct Z as [Z _]. congruence. } destruct (Qs Er) as (_ & _ & _ & _ & Z). exact Z. }
  split; [eapply Forall_impl; [|exact F2]; intros f Z; exact (proj1 (side_good sid Sid f Z))|]. constructor; try assumption.
  - destruct y_rd0 as (acts & cs & rem & T & Ac & Op & Ee & E & R & M). exists acts, cs, rem. split; [exact T|]. split; [exact Ac|]. split; [exact Op|]. split; [exact Ee|]. split; [rewrite app_assoc, F4, <- app_assoc; exact E|]. split; assumption.
  - destruct y_dn0 as [D1 D2]. split; [apply strangers_inl; exact D1|]. rewrite ours_app, ours_inl. apply Forall_app. split; assumption.
  - intro E. destruct (Qs E) as (Z1 & Z2 & Z3 & Z4 & Z5). destruct (y_rq0 E) as (_ & _ & _ & _ & Z6). rewrite sent_app, Z5, Z6. auto 10.
  - rewrite ours_app, ours_inl, app_assoc. destruct K as [h|] eqn:EK; [rewrite y_link0, sent_app; reflexivity|]. rewrite (Kn eq_refl), app_nil_r. exact y_link0.
  - intro Z. exact (y_cause0 (F3 Z)).
  - intro Z. destruct (y_dorm0 Z) as ((D1 & D2 & D3 & D4 & D5) & D6 & D7 & D8 & D9). rewrite ours_app, ours_inl, D2. destruct (Qs D8) as (_ & _ & _ & _ & Z1). rewrite Z1. auto 20.
  - rewrite ours_app, ours_inl, y_tok0. destruct K as [h|] eqn:EK; [reflexivity|]. rewrite (Kn eq_refl), app_nil_r. reflexivity.
  - rewrite !(crr_at sid Sid). rewrite !(crr_at sid Sid) in y_out0. rewrite nsum_cons in y_out0. rewrite !nsum_app, net_requests_app, nsum_app, R8, (nsum_asked sid Sid), (crr_flat sid Sid _ R9), (crr_flats sid Sid _ R10). lia.
  - rewrite ours_app, ours_inl, sent_app, !nsum_app. lia.
Qed.

(** Goroutines. *)
Lemma n_tsend : forall up dn pre post e r rths rtr rtodo rreg a f b runs, inv up dn pre post e r rths rtr rtodo rreg (a ++ TSend f :: b) runs ->
  good f /\ inv up (dn ++ [inl f]) pre post e r rths rtr rtodo rreg (a ++ b) runs.
Proof.
  intros up dn pre post e r rths rtr rtodo rreg a f b runs []. assert (T := y_tasks0). apply Forall_app in T. destruct T as [T1 T2]. inversion T2 as [|? ? Tf T3]; subst. destruct Tf as [Kn Ef]. subst f. destruct (refusal_good sid md Sid) as [G A].
  split; [exact G|]. constructor; try assumption.
  - destruct y_dn0 as [D1 D2]. split; [apply (strangers_inl sid dn [refusal]); exact D1|]. rewrite ours_app. apply Forall_app. split; [exact D2|]. constructor; [right; right; split; assumption|constructor].
  - rewrite !nsum_app, nsum_cons in *. cbn [tst] in *. lia.
  - apply Forall_app. split; assumption.
  - rewrite Kn in *. rewrite ours_app, app_assoc. apply Forall_app. split; [exact y_link0|]. constructor; [reflexivity|constructor].
  - intro Z. destruct (y_dorm0 Z) as (_ & _ & Z1 & _). destruct a; discriminate Z1.
  - rewrite ours_app, app_assoc. rewrite Kn in *. rewrite !nsum_app, nsum_cons in *. rewrite (app_length (gone ++ ours dn)). cbn [ours flat_map app length tokt] in *. lia.
  - rewrite !nsum_app, nsum_cons in *. cbn [crt] in *. lia.
  - rewrite ours_app, nsum_app. change (ours [inl refusal]) with [refusal]. rewrite nsum_cons, nsum_nil. cbn [credit StreamWire.refusal]. lia.
Qed.
Lemma tst_tokt : forall l, nsum tst l <= nsum (@tokt H) l.
Proof. induction l as [|t l IH]; [apply N.le_refl|]. rewrite !nsum_cons. destruct t; cbn [tst tokt]; lia. Qed.
Lemma n_tregister : forall up dn pre post e r rths rtr rtodo rreg a h d m n b runs, inv up dn pre post e r rths rtr rtodo rreg (a ++ TRegister h d m n :: b) runs ->
  inv up dn pre post true r rths rtr rtodo true (a ++ TStart h d m n :: b) runs.
Proof.
  intros up dn pre post e r rths rtr rtodo rreg a h d m n b runs [].
  assert (T := y_tasks0). apply Forall_app in T. destruct T as [T1 T2]. inversion T2 as [|? ? Tf T3]; subst. assert (Kh := Tf). destruct Kh as [Kh _].
  assert (e = false) as ->.
  { destruct e; [|reflexivity]. exfalso. destruct y_ps0. rewrite Kh in y_tok0. assert (Z1 := tst_tokt a). assert (Z2 := tst_tokt b). rewrite !nsum_app, !nsum_cons in *. cbn [tst tokt] in *. destruct (p_first p); lia. }
  constructor; try assumption.
  - destruct y_rd0 as (acts & cs & rem & T & Ac & Op & Ee & E & R & M). destruct (Ee eq_refl) as [-> ->]. exists acts, [], false. rewrite (y_post0 eq_refl) in *. repeat split; try assumption; discriminate.
  - rewrite !nsum_app, !nsum_cons in *. cbn [tst] in *. lia.
  - discriminate.
  - apply Forall_app. split; [exact T1|]. constructor; assumption.
  - intro Z. destruct (y_dorm0 Z) as (_ & _ & Z1 & _). destruct a; discriminate Z1.
  - rewrite !nsum_app, !nsum_cons in *. cbn [tokt] in *. lia.
  - rewrite !nsum_app, !nsum_cons in *. cbn [crt] in *. lia.
Qed.
Lemma n_tstart : forall up dn pre post e r l u stack rest rtr rtodo rreg a h d m n b runs, inv up dn pre post e r (l ++ (u :: stack) :: rest) rtr rtodo rreg (a ++ TStart h d m n :: b) runs -> is_ruser u = true ->
  inv up dn pre post e r (l ++ (RI FUser :: RStart :: u :: stack) :: rest) rtr rtodo rreg (a ++ b) (runs ++ [(h, d, m, n)]).
Proof.
  intros up dn pre post e r l u stack rest rtr rtodo rreg a h d m n b runs [] U.
  assert (T := y_tasks0). apply Forall_app in T. destruct T as [T1 T2]. inversion T2 as [|? ? Tf T3]; subst. assert (Kh := Tf). destruct Kh as [Kh _].
  assert (Uc : clean (rit u) = true) by (rewrite (ruser_rit u U); reflexivity).
  destruct (rside_push gin sid _ _ _ _ _ _ RStart y_rs0 Uc) as [P1 E1]; [repeat split|]. destruct (rside_push gin sid _ _ _ _ _ _ (RI FUser) P1 eq_refl) as [P2 E2]; [repeat split|]. rewrite E1 in E2.
  constructor; try assumption.
  - rewrite E2. exact y_rd0.
  - rewrite app_length. rewrite !nsum_app, !nsum_cons in *. cbn [tst length] in *. lia.
  - apply Forall_app. split; assumption.
  - unfold cruns_ok. apply Forall_app. split; [exact y_runs0|]. constructor; [exact Tf|constructor].
  - intro Z. destruct runs; discriminate Z.
  - intro Z. destruct (y_dorm0 Z) as (_ & _ & Z1 & _). destruct a; discriminate Z1.
  - rewrite Kh in *. rewrite app_length. rewrite !nsum_app, !nsum_cons in *. cbn [tokt length] in *. lia.
  - rewrite !(crr_at sid Sid). rewrite !(crr_at sid Sid) in y_out0. rewrite !nsum_app, !nsum_cons, nsum_nil in *. cbn [crr crt run_n snd] in *. lia.
Qed.
Lemma n_trequest : forall up dn pre post e r l u stack rest rtr rtodo rreg a n b runs, inv up dn pre post e r (l ++ (u :: stack) :: rest) rtr rtodo rreg (a ++ TRequest n :: b) runs -> is_ruser u = true ->
  inv up dn pre post e r (l ++ (RNetDo (RNRequest n) :: u :: stack) :: rest) rtr rtodo rreg (a ++ b) runs.
Proof.
  intros up dn pre post e r l u stack rest rtr rtodo rreg a n b runs [] U.
  assert (T := y_tasks0). apply Forall_app in T. destruct T as [T1 T2]. inversion T2 as [|? ? Tf T3]; subst.
  assert (Uc : clean (rit u) = true) by (rewrite (ruser_rit u U); reflexivity).
  destruct (rside_push gin sid _ _ _ _ _ _ (RNetDo (RNRequest n)) y_rs0 Uc) as [P1 E1]; [repeat split|].
  constructor; try assumption.
  - rewrite E1. exact y_rd0.
  - rewrite !nsum_app, !nsum_cons in *. cbn [tst] in *. lia.
  - apply Forall_app. split; assumption.
  - intro Z. destruct (y_rq0 Z) as (Z1 & Z2 & Z3 & Z4 & Z5). split; [exact Z1|]. split; [exact Z2|]. split; [exact Z3|]. split; [|exact Z5]. rewrite forallb_at in *. cbn [forallb] in *. exact Z4.
  - intro Z. destruct (y_dorm0 Z) as (_ & _ & Z1 & _). destruct a; discriminate Z1.
  - rewrite !nsum_app, !nsum_cons in *. cbn [tokt] in *. lia.
  - rewrite !(crr_at sid Sid). rewrite !(crr_at sid Sid) in y_out0. rewrite !nsum_app, !nsum_cons in *. cbn [crr crt] in *. lia.
Qed.

(** The dispatcher goes on. *)
Definition turned (a : act) : list (task H) := match a with ASend f => [TSend f] | ARun _ h _ d m _ n => [TRegister h d m n] | ACall _ (DoRequest n) => [TRequest n] | _ => [] end.
Lemma n_ract_turn : forall up dn pre post e r rths rtr a todo rreg tasks runs, inv up dn pre post e r rths rtr (a :: todo) rreg tasks runs -> opening a = true \/ asks_n a = true ->
  inv up dn pre post e r rths rtr todo rreg (tasks ++ turned a) runs.
Proof.
  intros up dn pre post e r rths rtr a todo rreg tasks runs [] O. inversion y_todo0 as [|? ? Aa At]; subst. constructor; try assumption.
  - destruct y_rd0 as (acts & cs & rem & T & Ac & Op & Ee & E & R & M). destruct acts as [|a0 acts].
    + cbn [app] in T. destruct cs as [|c cs].
      * destruct rem; [|discriminate T]. cbn [map app] in T. injection T as -> ->. destruct O; discriminate.
      * cbn [map app] in T. injection T as -> ->. destruct O as [O|O]; [discriminate O|]. destruct c; try discriminate O. exists [], cs, rem. split; [reflexivity|]. split; [left; reflexivity|]. split; [reflexivity|]. split; [intro Z; destruct (Ee Z); discriminate|]. repeat split; assumption.
    + cbn [app] in T. injection T as -> ->. destruct Ac as [Ac|[-> ->]]; [discriminate Ac|]. exists acts, [], false. split; [reflexivity|]. split; [right; split; reflexivity|]. split; [cbn [forallb] in Op; apply andb_true_iff in Op; tauto|]. repeat split; assumption.
  - rewrite nsum_app, y_reg0. destruct a; try reflexivity; try (cbn [turned]; rewrite nsum_nil; lia); try (cbn [turned]; rewrite nsum_cons, nsum_nil; cbn [tst]; lia). destruct c; cbn [turned]; rewrite ?nsum_cons, nsum_nil; cbn [tst]; lia.
  - apply Forall_app. split; [exact y_tasks0|]. destruct a as [f|q|j|k h j d m q n|s c|j]; cbn [turned]; [constructor; [exact Aa|constructor]|constructor|constructor|constructor; [exact (proj2 Aa)|constructor]| |constructor]. destruct c; repeat constructor.
  - intro Z. destruct (y_dorm0 Z) as (_ & Z1 & _). discriminate Z1.
  - rewrite y_tok0, nsum_app, nsum_cons. destruct a; cbn [turned toka]; rewrite ?nsum_cons, ?nsum_nil; cbn [tokt]; try lia. destruct c; rewrite ?nsum_cons, ?nsum_nil; cbn [tokt]; lia.
  - rewrite nsum_app. rewrite nsum_cons in y_out0. destruct a; cbn [turned cra] in *; rewrite ?nsum_cons, ?nsum_nil; cbn [crt]; try lia. destruct c; rewrite ?nsum_cons, ?nsum_nil; cbn [crt]; lia.
Qed.
Lemma n_ract_call : forall up dn pre post e r rest rtr s f n todo rreg tasks runs, inv up dn pre post e r ([RO FUser] :: rest) rtr (ACall s f :: todo) rreg tasks runs -> net_call f = Some n ->
  inv up dn pre post e r ([RNetDo (rnet_call f); RO FUser] :: rest) rtr todo rreg tasks runs.
Proof.
  intros up dn pre post e r rest rtr s f n todo rreg tasks runs [] Nc. inversion y_todo0 as [|? ? Aa At]; subst. destruct (rside_net gin sid _ _ _ _ _ y_rs0 Nc) as [P E1].
  constructor; try assumption.
  - destruct y_rd0 as (acts & cs & rem & T & Ac & Op & Ee & E & R & M). destruct acts as [|a0 acts]; [|cbn [app] in T; injection T as <- ->; discriminate Op]. destruct cs as [|c cs]; [destruct rem; discriminate T|]. cbn [map app] in T. injection T as _ <- ->.
    exists [], cs, rem. split; [reflexivity|]. split; [left; reflexivity|]. split; [reflexivity|]. split; [intro Z; destruct (Ee Z); discriminate|]. split; [|split; assumption]. rewrite E1, <- E. cbn [map head_nets rit is_ruser flat_map app]. unfold netc at 2. rewrite Nc. reflexivity.
  - intro Z. destruct (y_dorm0 Z) as (_ & Z1 & _). discriminate Z1.
  - rewrite !nsum_cons in *. cbn [cra] in y_out0. assert (crr (RNetDo (rnet_call f)) = 0) as -> by (destruct f; try discriminate Nc; reflexivity). destruct f; try discriminate Nc; lia.
Qed.
Lemma n_ract_remove : forall up dn pre post e r rths rtr j todo rreg tasks runs, inv up dn pre post e r rths rtr (ARemove j :: todo) rreg tasks runs -> inv up dn pre post e r rths rtr todo false tasks runs.
Proof.
  intros up dn pre post e r rths rtr j todo rreg tasks runs []. inversion y_todo0 as [|? ? Aa At]; subst. constructor; try assumption.
  - destruct y_rd0 as (acts & cs & rem & T & Ac & Op & Ee & E & R & M). destruct acts as [|a0 acts]; [|cbn [app] in T; injection T as <- ->; discriminate Op]. destruct cs as [|c cs]; [|discriminate T]. destruct rem; [|discriminate T]. injection T as -> ->.
    exists [], [], false. split; [reflexivity|]. split; [left; reflexivity|]. split; [reflexivity|]. split; [auto|]. split; [exact E|]. split; [|discriminate]. rewrite (M eq_refl), andb_false_r. reflexivity.
  - intro Z. destruct (y_dorm0 Z) as (_ & Z1 & _). discriminate Z1.
Qed.

(** A frame is received. *)
Lemma n_mid : forall up f dn pre post e r rths rtr rreg tasks runs, inv (inl f :: up) dn pre post e r rths rtr [] rreg tasks runs -> chan_frame f /\ strangers sid up /\ In f (qsent ptr) /\ (e = false -> is_answer f = false).
Proof.
  intros up f dn pre post e r rths rtr rreg tasks runs []. cbn [ours flat_map app] in y_mid0. fold (ours up) in y_mid0.
  assert (I : In f (qsent ptr)) by (rewrite <- y_mid0; apply in_or_app; right; apply in_or_app; right; left; reflexivity). destruct y_ps0. split; [rewrite Forall_forall in ps_sent; exact (ps_sent f I)|]. split; [inversion y_up0; assumption|]. split; [exact I|].
  intro Ee. rewrite Ee in *. assert (runs = []) as Er by (destruct runs; [reflexivity|]; cbn [length] in y_reg0; lia). destruct (y_rq0 Er) as (_ & Z & _). destruct (y_cause0 Z) as (_ & _ & Ea).
  destruct ps_ask as [[n As]|No]. { exfalso. clear -As Ea. induction ptr as [|x l IH]; [destruct As|]. destruct As as [->|As]; [discriminate Ea|]. apply IH; [exact As|]. destruct x; try exact Ea. discriminate Ea. }
  destruct (is_answer f) eqn:A; [|reflexivity]. exfalso. assert (In f (filter is_answer (qsent ptr))) as Fi by (apply filter_In; split; assumption). rewrite ps_ans in Fi.
  assert (An := s_answer _ _ _ _ ps_sinv). assert (Nil : answer sid (out_calls (iev ptr)) = []). { unfold answer. clear -No. induction No as [|c l E No IH]; [reflexivity|]. cbn [upto]. destruct (closes c); cbn [flat_map]; rewrite E; [reflexivity|exact IH]. }
  rewrite Nil in An. symmetry in An. apply app_eq_nil in An. destruct An as [An _]. rewrite An in Fi. destruct Fi.
Qed.
Definition before (e : bool) (pre : list frame) (f : frame) : list frame := if e then pre else pre ++ [f].
Definition after (e : bool) (post : list frame) (f : frame) : list frame := if e then post ++ [f] else post.
Lemma mid_split : forall e pre post f x, (e = false -> post = []) -> before e pre f ++ after e post f ++ x = pre ++ post ++ f :: x.
Proof. intros e pre post f x E. destruct e; cbn [before after]; rewrite <- ?app_assoc; [reflexivity|]. rewrite (E eq_refl). reflexivity. Qed.

Lemma n_rrecv_request : forall up dn pre post e r rths rtr rreg tasks runs n l, inv (inl (with_n req n) :: up) dn pre post e r rths rtr [] rreg tasks runs -> head_nets (map (map rit) rths) = [] ->
  match K with Some h => exists q, l = [ARegister sid; ARun RC h sid data (handler_metadata wr RC md) q (u32z n)] | None => l = [ASend refusal] end ->
  inv up dn (before e pre (with_n req n)) (after e post (with_n req n)) e r rths rtr l rreg tasks runs.
Proof.
  intros up dn pre post e r rths rtr rreg tasks runs n l I0 Hn L. destruct (n_mid _ _ _ _ _ _ _ _ _ _ _ _ I0) as (_ & Su & Ui & _). destruct I0. cbn [ours flat_map app] in *. fold (ours up) in *. constructor; try assumption.
  - destruct y_rd0 as (acts & cs & rem & T & Ac & Op & Ee & E & R & M). assert (acts = [] /\ cs = [] /\ rem = false) as (-> & -> & ->).
    { destruct acts; [|discriminate T]. destruct cs; [|discriminate T]. destruct rem; [discriminate T|]. auto. }
    exists l, [], false. cbn [map app]. rewrite app_nil_r. split; [reflexivity|]. split; [right; auto|]. split; [destruct K as [h|]; [destruct L as [q ->]|subst l]; reflexivity|]. split; [auto|].
    assert (Ea : effects (after e post (with_n req n)) = effects post) by (destruct e; cbn [after]; [|reflexivity]; rewrite effects_app; destruct (ended post); apply app_nil_r).
    assert (Eb : ended (after e post (with_n req n)) = ended post) by (destruct e; cbn [after]; [|reflexivity]; rewrite ended_app; apply orb_false_r).
    rewrite Ea, Eb. repeat split; try assumption; discriminate.
  - rewrite (mid_split _ _ _ _ _ y_post0). exact y_mid0.
  - destruct e; cbn [before]; [exact y_pre0|]. apply Forall_app. split; [exact y_pre0|]. constructor; [reflexivity|constructor].
  - intros ->. exact (y_post0 eq_refl).
  - destruct K as [h|] eqn:EK; [destruct L as [q ->]|subst l].
    + constructor; [exact Logic.I|]. constructor; [|constructor]. split; [reflexivity|]. split; [exact EK|]. repeat split. eexists. split; [exact Ui|reflexivity].
    + constructor; [|constructor]. split; [exact EK|reflexivity].
  - intro Z. destruct (y_dorm0 Z) as ((Z1 & _) & _). discriminate Z1.
  - rewrite y_tok0, nsum_cons. destruct K as [h|]; [destruct L as [q ->]|subst l]; rewrite ?nsum_cons, ?nsum_nil; cbn [tok toka with_n]; lia.
  - rewrite nsum_cons in y_out0. destruct K as [h|]; [destruct L as [q ->]|subst l]; rewrite ?nsum_cons, ?nsum_nil in *; cbn [cra credit with_n rf_initial_n channel_request] in *; lia.
Qed.
Lemma n_rrecv_other : forall up f dn pre post e r rths rtr rreg tasks runs, inv (inl f :: up) dn pre post e r rths rtr [] rreg tasks runs -> head_nets (map (map rit) rths) = [] -> side_frame f ->
  inv up dn (before e pre f) (after e post f) e r rths rtr (if rreg then doing sid f else []) rreg tasks runs.
Proof.
  intros up f dn pre post e r rths rtr rreg tasks runs I0 Hn Sf. destruct (n_mid _ _ _ _ _ _ _ _ _ _ _ _ I0) as (_ & Su & Ui & Na). destruct (side_cases f Sf) as (C1 & C2 & C3 & C4). destruct (C4 ptr) as [C5 C6]. destruct I0. cbn [ours flat_map app] in *. fold (ours up) in *. constructor; try assumption.
  - destruct y_rd0 as (acts & cs & rem & T & Ac & Op & Ee & E & R & M). assert (acts = [] /\ cs = [] /\ rem = false) as (-> & -> & ->).
    { destruct acts; [|discriminate T]. destruct cs; [|discriminate T]. destruct rem; [discriminate T|]. auto. }
    cbn [flat_map] in E. rewrite app_nil_r in E. rewrite orb_false_r in R. destruct e; cbn [andb] in R; cbn [after].
    + destruct (ended post) eqn:Eg; subst rreg; cbn [negb].
      * exists [], [], false. split; [reflexivity|]. split; [left; reflexivity|]. split; [reflexivity|]. split; [auto|]. split; [cbn [flat_map]; rewrite app_nil_r, E, effects_app, Eg, app_nil_r; reflexivity|]. split; [rewrite ended_app, Eg; reflexivity|discriminate].
      * exists [], (asks f), (ends_stream f). split; [reflexivity|]. split; [left; reflexivity|]. split; [reflexivity|]. split; [discriminate|]. split; [rewrite app_assoc, E, effects_app, Eg; f_equal; unfold effects, fx; destruct (ends_stream f); rewrite app_nil_r; reflexivity|].
        split; [rewrite ended_app, Eg; cbn [ended existsb orb andb]; rewrite orb_false_r; destruct (ends_stream f); reflexivity|]. intro Z. rewrite ended_app. cbn [ended existsb]. rewrite Z. rewrite orb_true_r. reflexivity.
    + subst rreg. exists [], [], false. split; [reflexivity|]. split; [left; reflexivity|]. split; [reflexivity|]. split; [auto|]. split; [cbn [flat_map]; rewrite app_nil_r; exact E|]. split; [reflexivity|discriminate].
  - rewrite (mid_split _ _ _ _ _ y_post0). exact y_mid0.
  - destruct e; cbn [before]; [exact y_pre0|]. apply Forall_app. split; [exact y_pre0|]. constructor; [exact (Na eq_refl)|constructor].
  - intros ->. exact (y_post0 eq_refl).
  - destruct rreg; [exact C5|constructor].
  - intro Z. destruct (y_dorm0 Z) as ((Z1 & _) & _). discriminate Z1.
  - rewrite y_tok0, nsum_cons, C3, nsum_nil. destruct rreg; [rewrite C6|rewrite nsum_nil]; lia.
  - rewrite nsum_cons, nsum_nil in y_out0. destruct rreg; [rewrite <- C1|rewrite nsum_nil]; lia.
Qed.
Lemma n_rskip : forall up b dn pre post e r rths rtr rtodo rreg tasks runs, inv (inr b :: up) dn pre post e r rths rtr rtodo rreg tasks runs -> foreign sid b /\ inv up dn pre post e r rths rtr rtodo rreg tasks runs.
Proof. intros up b dn pre post e r rths rtr rtodo rreg tasks runs []. split; [inversion y_up0; assumption|]. constructor; try assumption. inversion y_up0; assumption. Qed.
End Responder.
End Sys.
