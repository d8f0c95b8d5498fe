(** The responder's moves of a streaming call; what the invariant says. *)
From Coq Require Import List NArith ZArith Lia Bool ZifyBool ZifyNat ZifyN.
From Verif Require Import Base BaseLemmas FramesModel FramesSpec FramesProofs InvokeModel MonoModel FluxModel FluxSpec ProxyModel ProxySpec DispatchModel DispatchSpec ResponderModel ResponderSpec ResponderProofs ResponderSerial.
From Verif Require Import StreamModel StreamSpec StreamSides StreamWire StreamInv.
From Verif Require CallModel CallSpec ProxyProofs.
Import ListNotations.
Open Scope N_scope.

Section Sys.
Context {H : Type}.
Context (wp wr : site) (tp tr : ikind -> list (option H)) (sp sr : bool) (g : fcfg) (sid : N) (data md : bytes).
Context (Sid : sid < 2^31) (Snd : CallSpec.sendable data md) (Few : few tr) (K : option H) (V : verdict md tr K).
Notation req := (stream_request sid data md).
Notation gin := (mkF false false false false false false).
Notation up_frame := (up_frame sid data md).
Notation good := (good sid).
Notation refusal := (refusal sid md).
Notation act := (act H unit).
Notation inv := (@inv H wr sp g sid data md K).
Notation act_ok := (@act_ok H wr sid data md K).
Notation task_ok := (@task_ok H wr sid data md K).
Notation run_ok := (@run_ok H wr data md K).
Notation sys := (@sys H wr sp g sid data md K).
Notation rstep := (rstep sr gin sid).

Definition runs_ok (ptr : list pevent) (l : list (H * bytes * bytes * N)) : Prop := Forall (fun x => match x with (h, d, m, n) => run_ok ptr h d m n end) l.
Definition started (runs : list (H * bytes * bytes * N)) : N := N.of_nat (match K with Some _ => length runs | None => 0%nat end).

(** Goroutines and what the dispatcher has to do, without the machine. *)
Lemma m_rset : forall p pths ptr ptodo preg up dn gone r rths rtr rtodo tasks runs rtodo' tasks',
  inv p pths ptr ptodo preg up dn gone r rths rtr rtodo tasks runs -> Forall (act_ok ptr) rtodo' -> Forall (task_ok ptr) tasks' ->
  nsum toka rtodo' + nsum tokt tasks' = nsum toka rtodo + nsum tokt tasks -> nsum cra rtodo' + nsum crt tasks' <= nsum cra rtodo + nsum crt tasks ->
  (rtodo = [] -> tasks = [] -> rtodo' = [] /\ tasks' = []) ->
  inv p pths ptr ptodo preg up dn gone r rths rtr rtodo' tasks' runs.
Proof.
  intros p pths ptr ptodo preg up dn gone r rths rtr rtodo tasks runs rtodo' tasks' [] A T Tk Cr D. constructor; try assumption.
  - intro F. destruct (i_dorm F) as (D1 & D2 & D3 & D4 & D5 & D6 & D7). destruct (D D5 D6) as [E1 E2]. auto 10.
  - lia.
  - lia.
Qed.

Lemma held_push : forall l c u stack rest, holds c = false -> held (l ++ (c :: u :: stack) :: rest) = held (l ++ (u :: stack) :: rest).
Proof. intros. rewrite !held_at. cbn [filter]. rewrite H0. reflexivity. Qed.
Lemma held_pop : forall l u stack rest, holds u = false -> held (l ++ (u :: stack) :: rest) = held (l ++ stack :: rest).
Proof. intros. rewrite !held_at. cbn [filter]. rewrite H0. reflexivity. Qed.
Lemma rinv_held : forall r ths ths' rtr, ResponderProofs.inv r ths rtr -> held ths' = held ths -> ResponderProofs.inv r ths' rtr.
Proof. intros r ths ths' rtr [A B C D] E. constructor; rewrite ?E; assumption. Qed.
Lemma crr_at : forall l x rest, nsum (nsum crr) (l ++ x :: rest) = nsum (nsum crr) l + nsum crr x + nsum (nsum crr) rest.
Proof. intros. rewrite nsum_app, nsum_cons. lia. Qed.
Lemma forallb_at : forall {A} (f : A -> bool) l x rest, forallb (forallb f) (l ++ x :: rest) = forallb (forallb f) l && (forallb f x && forallb (forallb f) rest).
Proof. intros. rewrite forallb_app. reflexivity. Qed.
Lemma Forall_at : forall {A} (f : A -> Prop) l x rest, Forall (Forall f) (l ++ x :: rest) <-> Forall (Forall f) l /\ Forall f x /\ Forall (Forall f) rest.
Proof. intros. rewrite Forall_app. split; [intros [A1 A2]; inversion A2; auto|intros (A1 & A2 & A3); split; [exact A1|constructor; assumption]]. Qed.
Lemma user_crr : forall u, is_ruser u = true -> crr u = 0.
Proof. destruct u as [it|it| | |c]; try discriminate; reflexivity. Qed.

(** Something is put on a thread. *)
Lemma m_rpush : forall p pths ptr ptodo preg up dn gone r l u stack rest rtr rtodo tasks runs rtodo' tasks' runs' c,
  inv p pths ptr ptodo preg up dn gone r (l ++ (u :: stack) :: rest) rtr rtodo tasks runs ->
  rcall c = true -> no_in c = true -> fit c -> (runs' = [] -> runs = [] /\ rearly c = true) ->
  Forall (act_ok ptr) rtodo' -> Forall (task_ok ptr) tasks' -> runs_ok ptr runs' ->
  nsum toka rtodo' + nsum tokt tasks' + started runs' = nsum toka rtodo + nsum tokt tasks + started runs ->
  nsum cra rtodo' + nsum crt tasks' + crr c + nsum run_n runs' <= nsum cra rtodo + nsum crt tasks + nsum run_n runs ->
  (rtodo = [] -> tasks = [] -> runs = [] -> rtodo' = [] /\ tasks' = [] /\ runs' = []) ->
  inv p pths ptr ptodo preg up dn gone r (l ++ (c :: u :: stack) :: rest) rtr rtodo' tasks' runs'.
Proof.
  intros p pths ptr ptodo preg up dn gone r l u stack rest rtr rtodo tasks runs rtodo' tasks' runs' c [] Rc Ni Fi Re A T Ro Tk Cr D. constructor; try assumption.
  - eapply rinv_held; [exact i_rinv|]. apply held_push. apply call_holds. exact Rc.
  - apply sinv_call; [exact i_rser|apply call_wait; exact Rc|apply call_holds; exact Rc].
  - destruct i_rno as (N1 & N2 & N3 & N4). split; [|split; [|split; assumption]].
    + rewrite forallb_at in *. cbn [forallb] in *. rewrite Ni. exact N1.
    + rewrite Forall_at in *. destruct N2 as (F1 & F2 & F3). split; [exact F1|]. split; [constructor; assumption|exact F3].
  - intro E. destruct (Re E) as [E' Er]. destruct (i_rq E') as (Q1 & Q2 & Q3 & Q4). split; [exact Q1|]. split; [exact Q2|]. split; [|exact Q4]. rewrite forallb_at in *. cbn [forallb] in *. rewrite Er. exact Q3.
  - intro F. destruct (i_dorm F) as (D1 & D2 & D3 & D4 & D5 & D6 & D7). destruct (D D5 D6 D7) as (E1 & E2 & E3). auto 10.
  - unfold started in Tk. destruct K; lia.
  - rewrite crr_at in *. rewrite nsum_cons. lia.
Qed.
Lemma m_rreturn : forall p pths ptr ptodo preg up dn gone r l u stack rest rtr rtodo tasks runs,
  inv p pths ptr ptodo preg up dn gone r (l ++ (u :: stack) :: rest) rtr rtodo tasks runs -> is_ruser u = true ->
  inv p pths ptr ptodo preg up dn gone r (l ++ stack :: rest) rtr rtodo tasks runs.
Proof.
  intros p pths ptr ptodo preg up dn gone r l u stack rest rtr rtodo tasks runs [] U. constructor; try assumption.
  - eapply rinv_held; [exact i_rinv|]. symmetry. apply held_pop. apply user_holds. exact U.
  - eapply sinv_return; eassumption.
  - destruct i_rno as (N1 & N2 & N3 & N4). split; [|split; [|split; assumption]].
    + rewrite forallb_at in *. cbn [forallb] in *. rewrite !andb_true_iff in *. tauto.
    + rewrite Forall_at in *. destruct N2 as (F1 & F2 & F3). split; [exact F1|]. split; [inversion F2; assumption|exact F3].
  - intro E. destruct (i_rq E) as (Q1 & Q2 & Q3 & Q4). split; [exact Q1|]. split; [exact Q2|]. split; [|exact Q4]. rewrite forallb_at in *. cbn [forallb] in *. rewrite !andb_true_iff in *. tauto.
  - rewrite crr_at in *. rewrite nsum_cons, (user_crr u U) in i_cred. exact i_cred.
Qed.

Lemma nsum_asked : forall it, nsum idn (asked it) = crr it.
Proof. destruct it as [it|it| | |c]; try reflexivity. destruct c; try reflexivity. cbn. unfold idn. lia. Qed.
Lemma crr_flat : forall its, flat_map asked its = [] -> nsum crr its = 0.
Proof. induction its as [|x l IH]; [reflexivity|]. cbn [flat_map]. intro E. apply app_eq_nil in E. destruct E as [E1 E2]. rewrite nsum_cons, (IH E2), <- nsum_asked, E1. reflexivity. Qed.
Lemma crr_flats : forall new, flat_map (flat_map asked) new = [] -> nsum (nsum crr) new = 0.
Proof. induction new as [|x l IH]; [reflexivity|]. cbn [flat_map]. intro E. apply app_eq_nil in E. destruct E as [E1 E2]. rewrite nsum_cons, (IH E2), (crr_flat x E1). reflexivity. Qed.

Lemma m_rstep : forall ini p pths ptr ptodo preg up dn gone r l it stack rest rtr rtodo tasks runs st' its new evs,
  inv p pths ptr ptodo preg up dn gone r (l ++ (it :: stack) :: rest) rtr rtodo tasks runs -> rstep ini r it = Some (st', its, new, evs) ->
  (begins it = true -> idle (l ++ (it :: stack) :: rest) = true) ->
  Forall good (rsent evs) /\ inv p pths ptr ptodo preg up (dn ++ map inl (rsent evs)) gone st' (l ++ (its ++ stack) :: rest ++ new) (rtr ++ evs) rtodo tasks runs.
Proof.
  intros ini p pths ptr ptodo preg up dn gone r l it stack rest rtr rtodo tasks runs st' its new evs [] X B.
  destruct i_rno as (N1 & N2 & N3 & N4 & N5). rewrite forallb_at in N1. cbn [forallb] in N1. rewrite !andb_true_iff in N1. destruct N1 as (NL & (NI & NS) & NR). apply Forall_at in N2. destruct N2 as (FL & FS & FR). inversion FS as [|? ? FI FS']; subst.
  assert (So : sound it = true). { assert (Z := s_sound _ _ _ _ i_rser). rewrite forallb_at in Z. cbn [forallb] in Z. rewrite !andb_true_iff in Z. tauto. }
  destruct (r_step sr gin sid ini r it st' its new evs NI FI So N3 X) as (R1 & R2 & R3 & R4 & R5 & R6 & R7 & R8 & R9 & R10).
  assert (I' := inv_step sr gin sid ini _ _ _ _ _ _ _ _ _ _ i_rinv X B). assert (S' := sinv_step sr gin sid ini _ _ _ _ _ _ _ _ _ _ i_rser X B (v_one _ _ _ I')).
  assert (Cl : Forall sendable_call (out_calls (rtr ++ evs))) by (rewrite calls_app; apply Forall_app; split; assumption).
  assert (Ga : Forall (fun f => good f /\ is_answer f = true) (rsent evs)).
  { assert (Z := answer_good sid Sid _ Cl). rewrite (s_answer _ _ _ _ S'), answers_app in Z. apply Forall_app in Z. destruct Z as [Z _]. apply Forall_app in Z. destruct Z as [_ Z]. rewrite <- R6 in Z. exact Z. }
  assert (Rs : rsent evs = sent_frames evs) by reflexivity.
  assert (Qs : runs = [] -> f_sub (r_out st') = false /\ r_sub st' = false /\ forallb (forallb rearly) (l ++ (its ++ stack) :: rest ++ new) = true /\ sent_frames evs = []).
  { intro E. destruct (i_rq E) as (Q1 & Q2 & Q3 & Q4). rewrite forallb_at in Q3. cbn [forallb] in Q3. rewrite !andb_true_iff in Q3. destruct Q3 as (QL & (QI & QS) & QR).
    destruct (rearly_step sr gin sid ini r it st' its new evs QI Q1 N3 Q2 X) as (Z1 & Z2 & -> & -> & Z3). split; [exact Z1|]. split; [exact Z2|]. split; [|exact Z3]. rewrite forallb_at. cbn [app]. rewrite app_nil_r, QL, QS, QR. reflexivity. }
  assert (Kn : K = None -> rsent evs = []).
  { intro E. rewrite Rs. assert (runs = []) as Er. { destruct runs as [|[[[h d] m] n] q]; [reflexivity|]. inversion i_runs as [|? ? Z _]; subst. destruct Z as [Z _]. congruence. } destruct (Qs Er) as (_ & _ & _ & Z). exact Z. }
  split; [eapply Forall_impl; [|exact Ga]; intros f [Z _]; exact Z|]. constructor; try assumption.
  - destruct i_dn as [D1 D2]. split; [apply strangers_inl; exact D1|]. rewrite ours_app, ours_inl. apply Forall_app. split; assumption.
  - split; [|split; [|split; [|split]]].
    + rewrite forallb_at, !forallb_app, NL, R1, NS, NR, R2. reflexivity.
    + apply Forall_at. split; [exact FL|]. split; [apply Forall_app; split; assumption|apply Forall_app; split; assumption].
    + exact R5.
    + rewrite sent_app, answers_app, N4, R6. reflexivity.
    + exact Cl.
  - intro E. destruct (Qs E) as (Z1 & Z2 & Z3 & Z4). destruct (i_rq E) as (_ & _ & _ & Z5). split; [exact Z1|]. split; [exact Z2|]. split; [exact Z3|]. rewrite sent_app, Z5, Z4. reflexivity.
  - rewrite ours_app, ours_inl, app_assoc. destruct K as [h|] eqn:EK; [rewrite i_link, sent_app; reflexivity|]. rewrite (Kn eq_refl), app_nil_r. exact i_link.
  - intro F. destruct (i_dorm F) as (D1 & D2 & D3 & D4 & D5 & D6 & D7). rewrite ours_app, ours_inl, D2. destruct (Qs D7) as (_ & _ & _ & Z). rewrite Rs, Z. auto 10.
  - rewrite ours_app, ours_inl, i_tok. destruct K as [h|] eqn:EK; [reflexivity|]. rewrite (Kn eq_refl), app_nil_r. reflexivity.
  - rewrite crr_at in *. rewrite nsum_cons in i_cred. rewrite !nsum_app, net_requests_app, nsum_app, R8, nsum_asked, (crr_flat _ R9), (crr_flats _ R10). lia.
Qed.

(** A refusal is sent. *)
Lemma m_tsend : forall p pths ptr ptodo preg up dn gone r rths rtr rtodo a b runs f, inv p pths ptr ptodo preg up dn gone r rths rtr rtodo (a ++ TSend f :: b) runs ->
  good f /\ inv p pths ptr ptodo preg up (dn ++ [inl f]) gone r rths rtr rtodo (a ++ b) runs.
Proof.
  intros p pths ptr ptodo preg up dn gone r rths rtr rtodo a b runs f []. assert (T := i_tasks). apply Forall_app in T. destruct T as [T1 T2]. inversion T2 as [|? ? Tf T3]; subst. destruct Tf as [Kn Ef]. subst f. destruct (refusal_good sid md Sid) as [G A].
  split; [exact G|]. constructor; try assumption.
  - destruct i_dn as [D1 D2]. split; [apply (strangers_inl sid dn [refusal]); exact D1|]. rewrite ours_app. apply Forall_app. split; [exact D2|]. constructor; [split; assumption|constructor].
  - apply Forall_app. split; assumption.
  - rewrite Kn in *. rewrite ours_app, app_assoc. apply Forall_app. split; [exact i_link|]. constructor; [reflexivity|constructor].
  - intro F. destruct (i_dorm F) as (_ & _ & _ & _ & _ & Z & _). destruct a; discriminate Z.
  - rewrite ours_app, app_assoc. rewrite Kn in *. rewrite !nsum_app, nsum_cons in *. rewrite (app_length (gone ++ ours dn)). cbn [ours flat_map app length tokt] in *. lia.
  - rewrite !nsum_app, nsum_cons in *. cbn [crt] in *. lia.
Qed.

(** A frame arrives. *)
Lemma up_cases : forall f, up_frame f -> (exists n, f = with_n req n) \/ is_request f = false /\ Forall (act_ok []) (doing sid f) /\ nsum toka (doing (H:=H) sid f) = 0 /\ nsum (@cra H) (doing sid f) = credit f /\ tok f = 0.
Proof.
  intros f U. destruct U as [[n E]|[[n E]|E]]; subst f; [left; eauto|right|right]; repeat split; repeat constructor. cbn. lia.
Qed.
Lemma m_rrecv_request : forall p pths ptr ptodo preg up dn gone r rths rtr tasks runs n l, inv p pths ptr ptodo preg (inl (with_n req n) :: up) dn gone r rths rtr [] tasks runs ->
  match K with Some h => exists q, l = [ARegister sid; ARun RS h sid data (handler_metadata wr RS md) q (u32z n)] | None => l = [ASend refusal] end ->
  inv p pths ptr ptodo preg up dn gone r rths rtr l tasks runs.
Proof.
  intros p pths ptr ptodo preg up dn gone r rths rtr tasks runs n l [] L. destruct i_up as [U1 U2]. cbn [ours flat_map app] in *. fold (ours up) in *. inversion U2 as [|? ? [Uf Ui] U3]; subst. constructor; try assumption.
  - split; [inversion U1; assumption|exact U3].
  - destruct K as [h|]; [destruct L as [q ->]|subst l].
    + constructor; [exact Logic.I|]. constructor; [|constructor]. split; [reflexivity|]. repeat split. eexists. split; [exact Ui|reflexivity].
    + constructor; [|constructor]. split; reflexivity.
  - intro F. destruct (i_dorm F) as (Z & _). discriminate Z.
  - rewrite i_tok, nsum_cons. destruct K as [h|]; [destruct L as [q ->]|subst l]; rewrite ?nsum_cons, ?nsum_nil; cbn [tok toka with_n]; lia.
  - rewrite nsum_cons in i_cred. destruct K as [h|]; [destruct L as [q ->]|subst l]; rewrite ?nsum_cons, ?nsum_nil in *; cbn [cra credit with_n rf_initial_n] in *; lia.
Qed.
Lemma m_rrecv_other : forall p pths ptr ptodo preg up dn gone r rths rtr tasks runs f l, inv p pths ptr ptodo preg (inl f :: up) dn gone r rths rtr [] tasks runs -> is_request f = false ->
  l = doing sid f \/ l = [] -> inv p pths ptr ptodo preg up dn gone r rths rtr l tasks runs.
Proof.
  intros p pths ptr ptodo preg up dn gone r rths rtr tasks runs f l [] R L. destruct i_up as [U1 U2]. cbn [ours flat_map app] in *. fold (ours up) in *. inversion U2 as [|? ? [Uf Ui] U3]; subst.
  destruct (up_cases f Uf) as [[n ->]|(_ & A1 & A2 & A3 & A4)]; [discriminate R|].
  assert (L' : Forall (act_ok ptr) l /\ nsum toka l = 0 /\ nsum cra l <= credit f). { destruct L as [->| ->]; [|repeat split; [constructor|apply N.le_0_l]]. split; [apply (act_mono wr sid data md K [] ptr); exact A1|]. split; [exact A2|]. rewrite A3. apply N.le_refl. }
  destruct L' as (L1 & L2 & L3). constructor; try assumption.
  - split; [inversion U1; assumption|exact U3].
  - intro F. destruct (i_dorm F) as (Z & _). discriminate Z.
  - rewrite i_tok, nsum_cons, A4, L2, nsum_nil. lia.
  - rewrite nsum_cons, nsum_nil in i_cred. lia.
Qed.
Lemma m_rskip : forall p pths ptr ptodo preg up b dn gone r rths rtr rtodo tasks runs, inv p pths ptr ptodo preg (inr b :: up) dn gone r rths rtr rtodo tasks runs ->
  foreign sid b /\ inv p pths ptr ptodo preg up dn gone r rths rtr rtodo tasks runs.
Proof. intros p pths ptr ptodo preg up b dn gone r rths rtr rtodo tasks runs []. destruct i_up as [A B]. split; [inversion A; assumption|]. constructor; try assumption. split; [inversion A; assumption|exact B]. Qed.

(** ** All moves *)
Lemma act_forall : forall ptr a l, Forall (act_ok ptr) (a :: l) -> act_ok ptr a /\ Forall (act_ok ptr) l.
Proof. intros ptr a l F. inversion F; auto. Qed.
Lemma snoc_task : forall ptr l t, Forall (task_ok ptr) l -> task_ok ptr t -> Forall (task_ok ptr) (l ++ [t]).
Proof. intros ptr l t F T. apply Forall_app. split; [exact F|]. constructor; [exact T|constructor]. Qed.
Lemma started_snoc : forall runs x, K <> None -> started (runs ++ [x]) = started runs + 1.
Proof. intros runs x N. unfold started. destruct K; [|congruence]. rewrite app_length. cbn [length]. lia. Qed.

Ltac fields := cbn [c_p c_pths c_ptr c_ptodo c_preg c_up c_down c_r c_rths c_rtr c_rtodo c_rreg c_tasks c_runs set_p set_r set_pths set_rths] in *; rewrite ?app_nil_r in *.

Lemma move_sys : forall c m c', sys c -> allowed sid c m -> do_move wp wr tp tr sp sr g sid data md c m = Some c' -> sys c'.
Proof.
  intros c m c' (up & dn & gone & Eu & Ed & I) A X. destruct c as [p pths ptr ptodo preg cup cdn r rths rtr rtodo rreg tasks runs].
  destruct m as [i f|i|i| | |i f|i|i| | |j i|bs|bs]; cbn [do_move] in X; fields.
  - (* MPCall *) destruct (CallModel.cut i pths) as [[[l x] rest]|] eqn:Cu; [|discriminate X]. destruct x as [|it stack]; [discriminate X|]. destruct it as [it|n|]; try discriminate X. destruct it; try discriminate X.
    destruct (pcalls f) eqn:Pf; [|discriminate X]. injection X as <-. destruct (cut_inv _ _ _ _ _ Cu) as [-> _]. exists up, dn, gone. fields. split; [exact Eu|]. split; [exact Ed|]. apply m_pcall; assumption.
  - (* MPReturn *) destruct (CallModel.cut i pths) as [[[l x] rest]|] eqn:Cu; [|discriminate X]. destruct x as [|it stack]; [discriminate X|]. destruct it as [it|n|]; try discriminate X. destruct it; try discriminate X. destruct stack as [|it stack]; [discriminate X|].
    injection X as <-. destruct (cut_inv _ _ _ _ _ Cu) as [-> _]. exists up, dn, gone. fields. split; [exact Eu|]. split; [exact Ed|]. apply m_preturn; assumption.
  - (* MPStep *) destruct (CallModel.cut i pths) as [[[l x] rest]|] eqn:Cu; [|discriminate X]. destruct x as [|it stack]; [discriminate X|]. destruct (pstep sp g req false p it) as [[[[st its] new] evs]|] eqn:Ps; [|discriminate X].
    destruct (cut_inv _ _ _ _ _ Cu) as [-> _]. destruct (m_pstep wr sp g sid data md Sid Snd K _ _ _ _ _ _ _ _ _ _ _ _ _ _ _ _ _ _ _ _ _ I Ps) as [G I']. rewrite (posts_good sid _ _ G) in X. injection X as <-.
    exists (up ++ map inl (psent evs)), dn, gone. fields. split; [rewrite encode_app, encode_inl, Eu; reflexivity|]. split; [exact Ed|]. exact I'.
  - (* MPRecv *) destruct pths as [|x rest]; [discriminate X|]. destruct x as [|it stack]; [discriminate X|]. destruct it as [it|n|]; try discriminate X. destruct it; try discriminate X. destruct stack as [|it stack]; [|discriminate X]. destruct ptodo as [|a todo]; [|discriminate X]. destruct cdn as [|bs down]; [discriminate X|].
    destruct dn as [|[f|b] dn]; [discriminate Ed| |]; cbn [encode map] in Ed; fold (encode dn) in Ed; injection Ed as -> ->.
    + destruct (m_precv wr sp g sid data md K _ _ _ _ _ _ _ _ _ _ _ _ _ _ I eq_refl) as [[G An] I']. assert (Rv := recv_own sid wp tp preg f G (is_answer_not_request f An)). destruct preg.
      * rewrite Rv in X. injection X as <-. exists up, dn, (gone ++ [f]). fields. rewrite own_doing. auto.
      * destruct Rv as [Rv|[e Rv]]; rewrite Rv in X; injection X as <-; exists up, dn, (gone ++ [f]); fields; cbn [filter]; auto.
    + destruct (m_pskip _ _ _ _ _ _ _ _ _ _ _ _ _ _ _ _ _ _ _ _ _ _ I) as [Fo I']. destruct (received sid wp tp preg b) as [l|e|] eqn:Rv; [| |discriminate X].
      * assert (Fl := recv_foreign sid wp tp preg b l Fo Rv). injection X as <-. exists up, dn, gone. fields. rewrite Fl. auto.
      * injection X as <-. exists up, dn, gone. fields. auto.
  - (* MPAct *) destruct pths as [|x rest]; [discriminate X|]. destruct x as [|it stack]; [discriminate X|]. destruct it as [it|n|]; try discriminate X. destruct it; try discriminate X. destruct stack as [|it stack]; [|discriminate X]. destruct ptodo as [|a todo]; [discriminate X|]. destruct a as [f|q|i|k h i d m0 q n|s f|i]; try discriminate X.
    + destruct (net_call f) as [n|] eqn:Nc; [|discriminate X]. injection X as <-. exists up, dn, gone. fields. split; [exact Eu|]. split; [exact Ed|]. eapply m_pact_call; eassumption.
    + injection X as <-. exists up, dn, gone. fields. split; [exact Eu|]. split; [exact Ed|]. eapply m_pact_remove; eassumption.
  - (* MRCall *) destruct (CallModel.cut i rths) as [[[l x] rest]|] eqn:Cu; [|discriminate X]. destruct x as [|u stack]; [discriminate X|]. destruct (is_ruser u && rcalls f) eqn:B; [|discriminate X]. apply andb_true_iff in B. destruct B as [Bu Bf]. injection X as <-. destruct (cut_inv _ _ _ _ _ Cu) as [-> _].
    exists up, dn, gone. fields. split; [exact Eu|]. split; [exact Ed|]. assert (I0 := I). destruct I0. eapply m_rpush with (1 := I); try assumption; try reflexivity; [intro Z; split; [exact Z|exact Bf]| |auto]. cbn [crr]. lia.
  - (* MRReturn *) destruct (CallModel.cut i rths) as [[[l x] rest]|] eqn:Cu; [|discriminate X]. destruct x as [|u stack]; [discriminate X|]. destruct stack as [|it stack]; [discriminate X|]. destruct (is_ruser u) eqn:Bu; [|discriminate X]. injection X as <-. destruct (cut_inv _ _ _ _ _ Cu) as [-> _].
    exists up, dn, gone. fields. split; [exact Eu|]. split; [exact Ed|]. eapply m_rreturn; eassumption.
  - (* MRStep *) destruct (CallModel.cut i rths) as [[[l x] rest]|] eqn:Cu; [|discriminate X]. destruct x as [|it stack]; [discriminate X|]. destruct (cut_inv _ _ _ _ _ Cu) as [-> Nt]. cbn [allowed] in A. fields.
    match type of X with match ResponderModel.rstep _ _ _ ?ini _ _ with _ => _ end = _ => destruct (ResponderModel.rstep sr gin sid ini r it) as [[[[st its] new] evs]|] eqn:Rs end; [|discriminate X].
    destruct (m_rstep _ _ _ _ _ _ _ _ _ _ _ _ _ _ _ _ _ _ _ _ _ _ I Rs (A it stack Nt)) as [G I']. rewrite (posts_good sid _ _ G) in X. injection X as <-.
    exists up, (dn ++ map inl (rsent evs)), gone. fields. split; [exact Eu|]. split; [rewrite encode_app, encode_inl, Ed; reflexivity|]. exact I'.
  - (* MRRecv *) destruct rths as [|x rest]; [discriminate X|]. destruct x as [|it stack]; [discriminate X|]. destruct it as [it|it| | |n]; try discriminate X. destruct it; try discriminate X. destruct stack as [|it stack]; [|discriminate X]. destruct rtodo as [|a todo]; [|discriminate X]. destruct cup as [|bs cup]; [discriminate X|].
    destruct up as [|[f|b] up]; [discriminate Eu| |]; cbn [encode map] in Eu; fold (encode up) in Eu; injection Eu as -> ->.
    + assert (Uf : up_frame f). { destruct I. destruct i_up as [_ U]. cbn [ours flat_map app] in U. inversion U as [|? ? [Z _] _]. exact Z. }
      destruct (up_cases f Uf) as [[n ->]|(R & _)].
      * destruct (recv_open sid data md Sid Snd wr tr rreg n K Few V) as (l & Rv & L). rewrite Rv in X. injection X as <-. exists up, dn, gone. fields. split; [reflexivity|]. split; [exact Ed|]. eapply m_rrecv_request; eassumption.
      * assert (G : good f) by (apply (up_good sid data md); assumption). assert (Rv := recv_own sid wr tr rreg f G R). destruct rreg.
        -- rewrite Rv in X. injection X as <-. exists up, dn, gone. fields. rewrite own_doing. split; [reflexivity|]. split; [exact Ed|]. eapply m_rrecv_other; [exact I|exact R|left; reflexivity].
        -- destruct Rv as [Rv|[e Rv]]; rewrite Rv in X; injection X as <-; exists up, dn, gone; fields; cbn [filter]; (split; [reflexivity|]); (split; [exact Ed|]); (eapply m_rrecv_other; [exact I|exact R|right; reflexivity]).
    + destruct (m_rskip _ _ _ _ _ _ _ _ _ _ _ _ _ _ _ I) as [Fo I']. destruct (received sid wr tr rreg b) as [l|e|] eqn:Rv; [| |discriminate X].
      * assert (Fl := recv_foreign sid wr tr rreg b l Fo Rv). injection X as <-. exists up, dn, gone. fields. rewrite Fl. auto.
      * injection X as <-. exists up, dn, gone. fields. auto.
  - (* MRAct *) destruct rths as [|x rest]; [discriminate X|]. destruct x as [|it stack]; [discriminate X|]. destruct it as [it|it| | |n]; try discriminate X. destruct it; try discriminate X. destruct stack as [|it stack]; [|discriminate X]. destruct rtodo as [|a todo]; [discriminate X|].
    assert (I0 := I). destruct I0. destruct (act_forall _ _ _ i_todo) as [Aa At].
    destruct a as [f|q|i|k h i d m0 q n|s f|i]; try discriminate X.
    + injection X as <-. exists up, dn, gone. fields. split; [exact Eu|]. split; [exact Ed|]. eapply m_rset with (1 := I); [exact At|apply snoc_task; assumption| | |intro Z; discriminate Z]; rewrite nsum_app, !nsum_cons, nsum_nil; cbn [toka tokt cra crt]; lia.
    + injection X as <-. exists up, dn, gone. fields. split; [exact Eu|]. split; [exact Ed|]. eapply m_rset with (1 := I); [exact At|assumption| | |intro Z; discriminate Z]; rewrite !nsum_cons; cbn [toka tokt cra crt]; lia.
    + destruct k; try discriminate X. injection X as <-. exists up, dn, gone. fields. split; [exact Eu|]. split; [exact Ed|]. destruct Aa as [_ Aa]. eapply m_rset with (1 := I); [exact At|apply snoc_task; assumption| | |intro Z; discriminate Z]; rewrite nsum_app, !nsum_cons, nsum_nil; cbn [toka tokt cra crt]; lia.
    + assert (G : forall n0, rnet_call f = n0 -> (forall n1, n0 <> RNRequest n1) -> inv p pths ptr ptodo preg up dn gone r ([RNetDo n0; RO FUser] :: rest) rtr todo tasks runs).
      { intros n0 E Ne. eapply (m_rpush _ _ _ _ _ _ _ _ _ [] (RO FUser) [] rest _ _ _ _ todo tasks runs (RNetDo n0) I); try assumption; try reflexivity.
        - intro Z. split; [exact Z|reflexivity].
        - rewrite nsum_cons. destruct n0; try (exfalso; eapply Ne; reflexivity); cbn [crr]; lia.
        - discriminate. }
      destruct f as [d m0| |e|n].
      * injection X as <-. exists up, dn, gone. fields. split; [exact Eu|]. split; [exact Ed|]. eapply G; [reflexivity|discriminate].
      * injection X as <-. exists up, dn, gone. fields. split; [exact Eu|]. split; [exact Ed|]. eapply G; [reflexivity|discriminate].
      * injection X as <-. exists up, dn, gone. fields. split; [exact Eu|]. split; [exact Ed|]. eapply G; [reflexivity|discriminate].
      * injection X as <-. exists up, dn, gone. fields. split; [exact Eu|]. split; [exact Ed|]. eapply m_rset with (1 := I); [exact At|apply snoc_task; [assumption|exact Logic.I]| | |intro Z; discriminate Z]; rewrite nsum_app, !nsum_cons, nsum_nil; cbn [toka tokt cra crt]; lia.
    + injection X as <-. exists up, dn, gone. fields. split; [exact Eu|]. split; [exact Ed|]. eapply m_rset with (1 := I); [exact At|assumption| | |intro Z; discriminate Z]; rewrite !nsum_cons; cbn [toka tokt cra crt]; lia.
  - (* MTask *) destruct (CallModel.cut j tasks) as [[[a t] b]|] eqn:Cu; [|discriminate X]. destruct (cut_inv _ _ _ _ _ Cu) as [-> _]. assert (I0 := I). destruct I0. assert (Tt := i_tasks). apply Forall_app in Tt. destruct Tt as [Ta Tb]. inversion Tb as [|? ? Tt Tb']; subst.
    destruct t as [f|h d m0 n|h d m0 n|n].
    + destruct (m_tsend _ _ _ _ _ _ _ _ _ _ _ _ _ _ _ _ I) as [G I']. rewrite (posts_good sid [f] _ (Forall_cons _ G (Forall_nil _))) in X. injection X as <-. exists up, (dn ++ [inl f]), gone. fields. split; [reflexivity|]. split; [rewrite encode_app; reflexivity|]. exact I'.
    + injection X as <-. exists up, dn, gone. fields. split; [reflexivity|]. split; [reflexivity|]. eapply m_rset with (1 := I); [assumption|apply Forall_app; split; [exact Ta|constructor; assumption]| | |intros _ Z; destruct a; discriminate Z]; rewrite !nsum_app, !nsum_cons; cbn [tokt crt]; lia.
    + destruct (CallModel.cut i rths) as [[[l x] rest]|] eqn:Ci; [|discriminate X]. destruct x as [|u stack]; [discriminate X|]. destruct (is_ruser u) eqn:Bu; [|discriminate X]. destruct (cut_inv _ _ _ _ _ Ci) as [-> _]. injection X as <-. exists up, dn, gone. fields. split; [reflexivity|]. split; [reflexivity|].
      cbn [StreamInv.task_ok] in Tt. eapply m_rpush with (1 := I); try assumption; try reflexivity.
      * intro Z. destruct runs; discriminate Z.
      * apply Forall_app. split; assumption.
      * unfold runs_ok. apply Forall_app. split; [assumption|]. constructor; [exact Tt|constructor].
      * rewrite started_snoc by (destruct Tt as [Z _]; congruence). rewrite !nsum_app, nsum_cons. cbn [tokt]. lia.
      * rewrite !nsum_app, !nsum_cons, nsum_nil. cbn [crt crr run_n snd]. lia.
      * intros _ Z. destruct a; discriminate Z.
    + destruct (CallModel.cut i rths) as [[[l x] rest]|] eqn:Ci; [|discriminate X]. destruct x as [|u stack]; [discriminate X|]. destruct (is_ruser u) eqn:Bu; [|discriminate X]. destruct (cut_inv _ _ _ _ _ Ci) as [-> _]. injection X as <-. exists up, dn, gone. fields. split; [reflexivity|]. split; [reflexivity|].
      eapply m_rpush with (1 := I); try assumption; try reflexivity.
      * intro Z. split; [exact Z|reflexivity].
      * apply Forall_app. split; assumption.
      * rewrite !nsum_app, nsum_cons. cbn [tokt]. lia.
      * rewrite !nsum_app, !nsum_cons. cbn [crt crr]. lia.
      * intros _ Z. destruct a; discriminate Z.
  - (* MUp *) injection X as <-. exists (up ++ [inr bs]), dn, gone. fields. split; [rewrite encode_app, Eu; reflexivity|]. split; [exact Ed|]. destruct I. constructor; try assumption; rewrite ?ours_app; cbn [ours flat_map]; rewrite ?app_nil_r; try assumption. destruct i_up as [U1 U2]. split; [apply strangers_inr; assumption|exact U2].
  - (* MDown *) injection X as <-. exists up, (dn ++ [inr bs]), gone. fields. split; [exact Eu|]. split; [rewrite encode_app, Ed; reflexivity|]. destruct I. constructor; try assumption; rewrite ?ours_app; cbn [ours flat_map]; rewrite ?app_nil_r; try assumption. destruct i_dn as [U1 U2]. split; [apply strangers_inr; assumption|exact U2].
Qed.

Lemma reach_sys : forall c, sreach wp wr tp tr sp sr g sid data md c -> sys c.
Proof. intros c R. induction R as [n m|c m c' R IH A X]; [eapply sys_init; eassumption|]. eapply move_sys; eassumption. Qed.

(** ** What it says *)
Lemma not_disturbed : forall c : conf H, undisturbed c -> disturbed (c_ptr c) = false.
Proof.
  intros c [A B]. unfold disturbed. change (pvs (c_ptr c)) with (subscriber c). destruct (existsb disturbs (fcalls (subscriber c))) eqn:E; [|reflexivity]. exfalso. apply existsb_exists in E. destruct E as (x & X & D). destruct x; try discriminate D; [exact (A X)|exact (B X)].
Qed.
Lemma prefix_expected : forall (l l' : list (fcall pay bytes)), exists d, expected g (l ++ l') = expected g l ++ d.
Proof. intros. rewrite (expected_app g). eexists. reflexivity. Qed.
Lemma prefix_effects : forall a b, exists d, expected g (map fc (effects (a ++ b))) = expected g (map fc (effects a)) ++ d.
Proof. intros a b. rewrite effects_app, map_app. apply prefix_expected. Qed.

Definition got (c : conf H) (gone : list frame) : Prop := exists d, expected g (map fc (effects gone)) = seen c ++ d.
Lemma sys_got : forall c up dn gone, inv (c_p c) (c_pths c) (c_ptr c) (c_ptodo c) (c_preg c) up dn gone (c_r c) (c_rths c) (c_rtr c) (c_rtodo c) (c_tasks c) (c_runs c) -> got c gone.
Proof.
  intros c up dn gone []. destruct (kinv_prefix g _ _ _ i_k) as [x Dx]. destruct i_disp as (cs & rem & _ & E & _). change (pvs (c_ptr c)) with (subscriber c) in Dx. unfold got, seen. rewrite <- E, map_app. destruct (prefix_expected (map fc (nets (c_ptr c))) (map fc (head_nets (c_pths c) ++ flat_map netc cs))) as [y Y].
  unfold due in Dx. rewrite Y, Dx, <- app_assoc. eexists. reflexivity.
Qed.
Lemma sys_all : forall c up dn gone, inv (c_p c) (c_pths c) (c_ptr c) (c_ptodo c) (c_preg c) up dn gone (c_r c) (c_rths c) (c_rtr c) (c_rtodo c) (c_tasks c) (c_runs c) ->
  at_rest c -> undisturbed c -> expected g (map fc (effects gone)) = seen c.
Proof.
  intros c up dn gone [] (_ & _ & Pt & _ & _ & [us Pu] & _) U. rewrite Pu in i_k, i_disp. assert (Dk := kinv_idle g _ _ _ i_k (not_disturbed c U)). destruct i_disp as (cs & rem & T & E & _). rewrite Pt in T.
  assert (cs = []) as -> by (destruct cs; [reflexivity|discriminate T]). cbn [head_nets flat_map app] in E. rewrite app_nil_r in E. rewrite <- E. symmetry. exact Dk.
Qed.

Lemma tok_cancel : forall l, nsum tok (filter (fun f => negb (is_cancel f)) l) = nsum tok l.
Proof. induction l as [|f l IH]; [reflexivity|]. cbn [filter]. destruct f; cbn [is_cancel negb]; rewrite ?nsum_cons, IH; reflexivity. Qed.
Lemma tok_one : forall p ths ptr, preach sp g req false p ths ptr -> nsum tok (psent ptr) <= 1.
Proof.
  intros p ths ptr R. destruct (ProxyProofs.reach_inv _ _ _ _ _ _ _ R) as [_ _ A _]. change (psent ptr) with (frames_sent ptr). rewrite <- tok_cancel. fold (credit_frames ptr). rewrite A. destruct (demands (until_complete ptr)) as [|n ns]; [apply N.le_0_l|]. cbn [credit_owed]. rewrite nsum_cons. cbn [tok].
  assert (Z : nsum tok (map (fun m => FRequestN (rf_stream_id req) (u32z m)) ns) = 0) by (clear A; induction ns as [|m ns IH]; [reflexivity|]; cbn [map]; rewrite nsum_cons, IH; reflexivity). rewrite Z. lia.
Qed.
Lemma tok_opened : forall c : conf H, opened c -> 1 <= nsum tok (psent (c_ptr c)).
Proof.
  intros c [r I]. change (frames_sent (c_ptr c)) with (psent (c_ptr c)) in I. induction (psent (c_ptr c)) as [|f l IH]; [destruct I|]. rewrite nsum_cons. destruct I as [->|I]; [cbn [tok]; lia|]. specialize (IH I). lia.
Qed.
Lemma encode_nil : forall l, encode l = [] -> l = [].
Proof. destruct l; [reflexivity|discriminate]. Qed.
Lemma fold_nsum : forall {A} (f : A -> N) l, fold_right N.add 0 (map f l) = nsum f l.
Proof. intros A f. induction l as [|x l IH]; [reflexivity|]. cbn [map fold_right]. rewrite IH. reflexivity. Qed.

Section Named.
Context (h : H) (Kh : K = Some h).
Lemma named_stream : forall c, sys c -> exists d, expected g (emitted c) = seen c ++ d.
Proof.
  intros c (up & dn & gone & Eu & Ed & I). destruct (sys_got _ _ _ _ I) as [x X]. destruct I. rewrite Kh in i_link. destruct i_rno as (_ & _ & _ & An & _). assert (S := s_answer _ _ _ _ i_rser).
  unfold emitted. rewrite <- (effects_owed g sid (out_calls (c_rtr c))). fold (answer sid (out_calls (c_rtr c))). rewrite S, <- An, <- i_link, <- app_assoc. destruct (prefix_effects gone (ours dn ++ ResponderSerial.pending sid (c_rths c))) as [y Y]. rewrite Y, X, <- app_assoc. eexists. reflexivity.
Qed.
Lemma named_rest : forall c, sys c -> at_rest c -> undisturbed c -> seen c = expected g (emitted c).
Proof.
  intros c (up & dn & gone & Eu & Ed & I) Re U. rewrite <- (sys_all _ _ _ _ I Re U). destruct I. rewrite Kh in i_link. destruct i_rno as (_ & _ & _ & An & _). assert (S := s_answer _ _ _ _ i_rser). destruct Re as (_ & Dn & _ & _ & _ & _ & Id).
  rewrite Ed in Dn. apply encode_nil in Dn. subst dn. cbn [ours flat_map] in i_link. rewrite app_nil_r in i_link. destruct (free_threads sid (c_rths c) (s_sound _ _ _ _ i_rser) (held_idle _ Id)) as [P _]. rewrite P, app_nil_r in S.
  unfold emitted. rewrite <- (effects_owed g sid (out_calls (c_rtr c))). fold (answer sid (out_calls (c_rtr c))). rewrite S, <- An, <- i_link. reflexivity.
Qed.
Lemma named_runs : forall c, sys c -> Forall (fun x => exists r, In (FramesModel.FRequest r) (frames_sent (c_ptr c)) /\ x = (h, data, handler_metadata wr RS md, rf_initial_n r)) (c_runs c) /\
  (length (c_runs c) <= 1)%nat /\ (at_rest c -> opened c -> length (c_runs c) = 1%nat).
Proof.
  intros c (up & dn & gone & Eu & Ed & []). rewrite Kh in i_tok. assert (T := tok_one _ _ _ i_p). split; [|split].
  - eapply Forall_impl; [|exact i_runs]. intros [[[h' d] m] n] (A & -> & -> & (r & B & <-)). exists r. split; [exact B|]. congruence.
  - lia.
  - intros (Up & _ & _ & Rt & Ta & _) O. apply tok_opened in O. rewrite Eu in Up. apply encode_nil in Up. subst up. rewrite Rt, Ta in i_tok. cbn [ours flat_map] in i_tok. rewrite !nsum_nil in i_tok. lia.
Qed.
End Named.

Section Refused.
Context (Kn : K = None).
Notation message := (if len md <? 8 then invalid_metadata else not_found).
Lemma refused_runs : forall c, sys c -> c_runs c = [].
Proof. intros c (up & dn & gone & Eu & Ed & []). destruct (c_runs c) as [|[[[h d] m] n] l]; [reflexivity|]. inversion i_runs as [|? ? Z _]. destruct Z as [Z _]. congruence. Qed.
Lemma refused_effects : forall gone, Forall (eq refusal) gone -> expected g (map fc (effects gone)) = match gone with [] => [] | _ => expected g [FluxModel.FError message] end.
Proof. intros gone F. destruct F as [|f l <- F]; reflexivity. Qed.
Lemma refused_seen : forall c, sys c -> (exists d, expected g [FluxModel.FError message] = seen c ++ d) /\ (at_rest c -> opened c -> undisturbed c -> seen c = expected g [FluxModel.FError message]).
Proof.
  intros c (up & dn & gone & Eu & Ed & I). destruct (sys_got _ _ _ _ I) as [x X]. assert (I0 := I). destruct I0. rewrite Kn in i_link, i_tok. apply Forall_app in i_link. destruct i_link as [G D]. rewrite (refused_effects gone G) in X. split.
  - destruct gone as [|f l]; [|eexists; exact X]. symmetry in X. apply app_eq_nil in X. destruct X as [-> _]. eexists. reflexivity.
  - intros Re O U. rewrite <- (sys_all _ _ _ _ I Re U), (refused_effects gone G). destruct gone as [|f l]; [|reflexivity]. exfalso. destruct Re as (Up & Dn & _ & Rt & Ta & _). apply tok_opened in O. rewrite Eu in Up. rewrite Ed in Dn. apply encode_nil in Up, Dn. subst up dn. rewrite Rt, Ta in i_tok. cbn [ours flat_map app length] in i_tok. rewrite !nsum_nil in i_tok. lia.
Qed.
End Refused.

Lemma sys_credit : forall c, sys c -> arrived c <= total (c_ptr c).
Proof.
  intros c (up & dn & gone & Eu & Ed & []). unfold arrived, total. rewrite !fold_nsum. change (frames_sent (c_ptr c)) with (psent (c_ptr c)).
  change (flat_map (fun e => match e with RNet (RNRequest n) => [n] | _ => [] end) (c_rtr c)) with (net_requests (c_rtr c)). rewrite <- (map_id (net_requests (c_rtr c))), fold_nsum. change (fun x : N => x) with idn. change (@snd (H * bytes * bytes) N) with (@run_n H). lia.
Qed.
End Sys.

(** ** Running moves *)
Section Run.
Context {H : Type}.
Context (wp wr : site) (tp tr : ikind -> list (option H)) (sp sr : bool) (g : fcfg) (sid : N) (data md : bytes).
Definition sendableb (c : fcall pay bytes) : bool :=
  match c with
  | FNext (d, m) => (len m <? 16777216) && (len m + len d <? 4294967283)
  | FluxModel.FError e => len e <? 4294967283
  | _ => true
  end.
Definition foreignb (bs : bytes) : bool := match frame_parse bs with Ret (Some f) => negb (frame_sid f =? sid) | _ => false end.
Definition allowedb (c : conf H) (m : move) : bool :=
  match m with
  | MRCall _ f => sendableb f
  | MRStep i => match nth_error (c_rths c) i with Some (it :: _) => implb (begins it) (idle (c_rths c)) | _ => true end
  | MUp bs | MDown bs => foreignb bs
  | _ => true
  end.
Lemma foreignb_sound : forall bs, foreignb bs = true -> foreign sid bs.
Proof. intros bs E. unfold foreignb in E. destruct (frame_parse bs) as [[f|]|e|] eqn:P; try discriminate E. exists f. split; [exact P|]. apply negb_true_iff, N.eqb_neq in E. exact E. Qed.
Lemma allowedb_sound : forall c m, allowedb c m = true -> allowed sid c m.
Proof.
  intros c m E. destruct m; cbn [allowedb allowed] in *; try exact Logic.I; try (apply foreignb_sound; exact E).
  - destruct c0; cbn [sendableb sendable_call] in *; try exact Logic.I; [destruct v as [d m]; apply andb_true_iff in E; destruct E as [E1 E2]; apply N.ltb_lt in E1, E2; split; assumption|apply N.ltb_lt in E; exact E].
  - intros it stack Nt B. rewrite Nt, B in E. exact E.
Qed.
Fixpoint run_moves (c : conf H) (ms : list move) : option (conf H) :=
  match ms with
  | [] => Some c
  | m :: ms' => if allowedb c m then match do_move wp wr tp tr sp sr g sid data md c m with Some c' => run_moves c' ms' | None => None end else None
  end.
Lemma run_reach : forall ms c c', sreach wp wr tp tr sp sr g sid data md c -> run_moves c ms = Some c' -> sreach wp wr tp tr sp sr g sid data md c'.
Proof.
  induction ms as [|m ms IH]; intros c c' R X; [injection X as <-; exact R|]. cbn [run_moves] in X. destruct (allowedb c m) eqn:A; [|discriminate X]. destruct (do_move wp wr tp tr sp sr g sid data md c m) as [c1|] eqn:D; [|discriminate X].
  eapply IH; [|exact X]. eapply s_move; [exact R|apply allowedb_sound; exact A|exact D].
Qed.
End Run.
