(** Proofs about a streaming call of a Rust guest that a Go peer serves. *)
From Coq Require Import List NArith ZArith Lia Bool ZifyBool ZifyNat ZifyN.
From Verif Require Import Base BaseLemmas CustomModel CustomSpec CustomProofs FramesModel FramesSpec FramesProofs InvokeModel MonoModel FluxModel FluxSpec ProxyModel ProxySpec DispatchModel DispatchSpec ResponderModel ResponderSpec ResponderProofs ResponderSerial.
From Verif Require Import RustFramesModel RustFramesSpec RustFramesProofs StreamModel StreamSpec StreamSides StreamWire StreamInv RustStreamModel RustAskModel RustAskSpec.
From Verif Require CallModel CallSpec RustCallModel RustCallProofs StreamProofs.
Import ListNotations.
Open Scope N_scope.

(** ** Calls whose arguments can be read *)
Section Readable.
Context (sr : bool) (gin : fcfg) (sid initial : N).
Notation rstep := (rstep sr gin sid initial).
Definition rfit (it : ritem) : Prop := match it with RO (FDo c) => readable_call c | _ => True end.
Lemma Readable_map_RO : forall its, Forall (fun it => match it with FDo c => readable_call c | _ => True end) its -> Forall rfit (map RO its).
Proof. induction 1 as [|it its A F IH]; [constructor|]. constructor; [destruct it; exact A|exact IH]. Qed.
Lemma Readable_map_ROs : forall new, Forall (Forall (fun it => match it with FDo c => readable_call c | _ => True end)) new -> Forall (Forall rfit) (map (map RO) new).
Proof. induction 1 as [|x l A F IH]; [constructor|]. constructor; [apply Readable_map_RO; exact A|exact IH]. Qed.
Lemma fstep_rfit : forall st i st' its new evs, @fstep pay bytes sr resp_cfg st i = Some (st', its, new, evs) ->
  Forall (fun it => match it with FDo c => readable_call c | _ => True end) its /\ Forall (Forall (fun it => match it with FDo c => readable_call c | _ => True end)) new.
Proof.
  intros st i st' its new evs X. destruct i as [|n|c|c|on e| | |n|n|n|sg|sg]; cbn [fstep] in X; try discriminate X.
  - destruct c; repeat match type of X with context [if ?b then _ else _] => destruct b end; try discriminate X; injection X as <- <- <- <-; repeat constructor.
  - destruct c; try discriminate X; injection X as <- <- <- <-; repeat constructor. destruct (0 <? f_n st)%Z; repeat constructor.
  - destruct on; [destruct e|]; injection X as <- <- <- <-; repeat constructor.
  - injection X as <- <- <- <-. split; [|constructor]. destruct (f_n st =? 0)%Z; repeat constructor.
  - injection X as <- <- <- <-; repeat constructor.
  - injection X as <- <- <- <-. split; [|constructor]. destruct (f_req st); repeat constructor.
  - destruct sr; injection X as <- <- <- <-; repeat constructor.
  - destruct (f_req st); [|discriminate X]. injection X as <- <- <- <-; repeat constructor.
  - injection X as <- <- <- <-; repeat constructor.
  - injection X as <- <- <- <-. split; [|constructor]. induction (f_cbs st); cbn; constructor; [exact Logic.I|assumption].
Qed.
Lemma Readable_calls : forall evs : list (fevent pay bytes), Forall readable_call (fcalls evs) -> Forall readable_call (out_calls (map ROV evs)).
Proof.
  induction evs as [|e l IH]; [constructor|]. unfold fcalls. cbn [map flat_map out_calls]. intro F. apply Forall_app in F. destruct F as [F1 F2]. apply Forall_app. split; [destruct e; assumption|exact (IH F2)].
Qed.
Lemma fstep_rcalls : forall st i st' its new evs, @fstep pay bytes sr resp_cfg st i = Some (st', its, new, evs) -> (match i with FEmit _ (VCall _) => False | FDo c => readable_call c | _ => True end) -> Forall readable_call (fcalls evs).
Proof.
  intros st i st' its new evs X Hi. destruct i as [|n|c|c|on e| | |n|n|n|sg|sg]; cbn [fstep] in X; try discriminate X.
  - destruct c; repeat match type of X with context [if ?b then _ else _] => destruct b end; try discriminate X; injection X as <- <- <- <-; first [exact (Forall_nil _) | exact (Forall_cons _ Hi (Forall_nil _))].
  - destruct c; try discriminate X; injection X as <- <- <- <-; constructor.
  - destruct on; [destruct e; try contradiction|]; injection X as <- <- <- <-; constructor.
  - injection X as <- <- <- <-; constructor.
  - injection X as <- <- <- <-; constructor.
  - injection X as <- <- <- <-; constructor.
  - destruct sr; injection X as <- <- <- <-; constructor.
  - destruct (f_req st); [|discriminate X]. injection X as <- <- <- <-; constructor.
  - injection X as <- <- <- <-; constructor.
  - injection X as <- <- <- <-; constructor.
Qed.
Lemma r_read : forall st it st' its new evs, no_in it = true -> rfit it -> sound it = true -> f_sub (r_in st) = false -> rstep st it = Some (st', its, new, evs) ->
  Forall rfit its /\ Forall (Forall rfit) new /\ Forall readable_call (out_calls evs).
Proof.
  intros st it st' its new evs N F S I X.
  assert (G : forall i, (match i with FEmit _ (VCall _) => False | FDo c => readable_call c | _ => True end) -> match fstep sr resp_cfg (r_out st) i with Some (fl, its, new, evs) => Some (mkR fl (r_in st) (r_sub st), map RO its, map (map RO) new, map ROV evs) | None => None end = Some (st', its, new, evs) ->
    Forall rfit its /\ Forall (Forall rfit) new /\ Forall readable_call (out_calls evs)).
  { intros i Hi Z. destruct (fstep sr resp_cfg (r_out st) i) as [[[[fl is] nw] ev]|] eqn:Fs; [|discriminate Z]. injection Z as <- <- <- <-. destruct (fstep_rfit _ _ _ _ _ _ Fs) as [A B].
    split; [apply Readable_map_RO; exact A|]. split; [apply Readable_map_ROs; exact B|]. apply Readable_calls; exact (fstep_rcalls _ _ _ _ _ _ Fs Hi). }
  destruct it as [it|it| | |c]; try discriminate N.
  - destruct it as [|n|c|c|on e| | |n|n|n|sg|sg]; try (match type of X with ResponderModel.rstep _ _ _ _ _ (_ ?i) = _ => exact (G i F X) end); try (match type of X with ResponderModel.rstep _ _ _ _ _ (_ ?i) = _ => exact (G i Logic.I X) end).
    destruct on.
    + cbn [ResponderModel.rstep] in X. destruct (frame_of sid e) as [f|] eqn:Fr.
      * injection X as <- <- <- <-. repeat split; try constructor; destruct e; try discriminate Fr; injection Fr as <-; constructor.
      * apply (G (FEmit true e)); [|exact X]. destruct e; try exact Logic.I. discriminate S.
    + apply (G (FEmit false e)); [|exact X]. destruct e; try exact Logic.I. discriminate S.
  - cbn in X. injection X as <- <- <- <-. repeat split; repeat constructor.
  - cbn in X. injection X as <- <- <- <-. repeat split; repeat constructor.
  - destruct c; cbn [ResponderModel.rstep] in X; rewrite ?I in X; try discriminate X. destruct (r_sub st); [|discriminate X]. injection X as <- <- <- <-. repeat split; repeat constructor.
Qed.
End Readable.

(** ** The responder's half *)
Section Sys.
Context {H : Type}.
Context (wr : site) (tr : ikind -> list (option H)) (sr : bool) (sid : N) (data md : bytes).
Context (Sid : sid < 2^31) (Snd : CallSpec.sendable data md) (Few : few tr) (K : option H) (V : verdict md tr K).
Notation req := (stream_request sid data md).
Notation gin := (mkF false false false false false false).
Notation up_frame := (up_frame sid data md).
Notation good := (good sid).
Notation refusal := (refusal sid md).
Notation act := (act H unit).
Notation act_ok := (@act_ok H wr sid data md K).
Notation task_ok := (@task_ok H wr sid data md K).
Notation run_ok := (@run_ok H wr data md K).
Notation rstep := (rstep sr gin sid).

Definition answer_ok (f : frame) : Prop := (good f /\ is_answer f = true) /\ match f with FPayload p => wf (pf_data p) /\ wf (pf_metadata p) | FramesModel.FError _ _ e => wf e /\ utf8_valid e = true | _ => True end.
Definition calm (l : line) : Prop := Forall (fun x : frame + bytes => match x with inl _ => True | inr b => wf b end) l.
Record inv (ptr : list pevent) (up dn : line) (gone : list frame)
           (r : rst) (rths : list (list ritem)) (rtr : list revent) (rtodo : list act) (tasks : list (task H)) (runs : list (H * bytes * bytes * N)) : Prop := {
  a_up : strangers sid up /\ Forall (fun f => up_frame f /\ In f (psent ptr)) (ours up);
  a_dn : (strangers sid dn /\ calm dn) /\ Forall answer_ok (ours dn);
  a_rinv : ResponderProofs.inv r rths rtr;
  a_rser : sinv sid r rths rtr;
  a_rno : forallb (forallb no_in) rths = true /\ Forall (Forall fit) rths /\ f_sub (r_in r) = false /\ sent_frames rtr = answers rtr /\ Forall sendable_call (out_calls rtr);
  a_read : Forall (Forall rfit) rths /\ Forall readable_call (out_calls rtr);
  a_todo : Forall (act_ok ptr) rtodo;
  a_tasks : Forall (task_ok ptr) tasks;
  a_runs : Forall (fun x => match x with (h, d, m, n) => run_ok ptr h d m n end) runs;
  a_rq : runs = [] -> f_sub (r_out r) = false /\ r_sub r = false /\ forallb (forallb rearly) rths = true /\ sent_frames rtr = [];
  a_link : match K with Some _ => gone ++ ours dn = sent_frames rtr | None => Forall (eq refusal) (gone ++ ours dn) end;
  a_tok : nsum tok (psent ptr) = nsum tok (ours up) + nsum toka rtodo + nsum tokt tasks + N.of_nat (match K with Some _ => length runs | None => length (gone ++ ours dn) end);
  a_cred : nsum credit (ours up) + nsum cra rtodo + nsum crt tasks + nsum (nsum crr) rths + nsum run_n runs + nsum idn (net_requests rtr) <= nsum credit (psent ptr) }.

Lemma refusal_ok : answer_ok refusal.
Proof. split; [apply refusal_good; exact Sid|]. unfold StreamWire.refusal. destruct (len md <? 8); (split; [apply wfb_wf; vm_compute; reflexivity|vm_compute; reflexivity]). Qed.
Lemma owed_ok : forall c, sendable_call c -> readable_call c -> Forall answer_ok (owed sid c).
Proof.
  intros c F R. assert (G := owed_good sid Sid c F). destruct c; try match goal with v : pay |- _ => destruct v as [d m] end; cbn [owed readable_call] in *; try apply Forall_nil; (constructor; [|apply Forall_nil]); (split; [inversion G; assumption|]); try exact R.
  split; constructor.
Qed.
Lemma answer_oks : forall l, Forall sendable_call l -> Forall readable_call l -> Forall answer_ok (answer sid l).
Proof.
  intros l F R. unfold answer. induction F as [|c l Fc Fl IH]; [constructor|]. inversion R; subst. cbn [upto]. destruct (closes c); cbn [flat_map].
  - rewrite app_nil_r. apply owed_ok; assumption.
  - apply Forall_app. split; [apply owed_ok; assumption|apply IH; assumption].
Qed.
Lemma calm_inl : forall l fs, calm l -> calm (l ++ map inl fs).
Proof. intros l fs S. apply Forall_app. split; [exact S|]. apply Forall_forall. intros x X. apply in_map_iff in X. destruct X as (f & <- & _). exact Logic.I. Qed.
Definition runs_ok (ptr : list pevent) (l : list (H * bytes * bytes * N)) : Prop := Forall (fun x => match x with (h, d, m, n) => run_ok ptr h d m n end) l.
Definition started (runs : list (H * bytes * bytes * N)) : N := N.of_nat (match K with Some _ => length runs | None => 0%nat end).

(** Goroutines and what the dispatcher has to do, without the machine. *)
Lemma m_rset : forall ptr up dn gone r rths rtr rtodo tasks runs rtodo' tasks',
  inv ptr up dn gone r rths rtr rtodo tasks runs -> Forall (act_ok ptr) rtodo' -> Forall (task_ok ptr) tasks' ->
  nsum toka rtodo' + nsum tokt tasks' = nsum toka rtodo + nsum tokt tasks -> nsum cra rtodo' + nsum crt tasks' <= nsum cra rtodo + nsum crt tasks ->
  (rtodo = [] -> tasks = [] -> rtodo' = [] /\ tasks' = []) ->
  inv ptr up dn gone r rths rtr rtodo' tasks' runs.
Proof.
  intros ptr up dn gone r rths rtr rtodo tasks runs rtodo' tasks' [] A T Tk Cr D. constructor; try assumption.
  - lia.
  - lia.
Qed.

Lemma held_push : forall l c u stack rest, holds c = false -> held (l ++ (c :: u :: stack) :: rest) = held (l ++ (u :: stack) :: rest).
Proof. intros. rewrite !held_at. cbn [filter]. rewrite H0. reflexivity. Qed.
Lemma held_pop : forall l u stack rest, holds u = false -> held (l ++ (u :: stack) :: rest) = held (l ++ stack :: rest).
Proof. intros. rewrite !held_at. cbn [filter]. rewrite H0. reflexivity. Qed.
Lemma rinv_held : forall r ths ths' rtr, ResponderProofs.inv r ths rtr -> held ths' = held ths -> ResponderProofs.inv r ths' rtr.
Proof. intros r ths ths' rtr [A B C D] E. constructor; rewrite ?E; assumption. Qed.
Lemma crr_at : forall l x rest, nsum (nsum crr) (l ++ x :: rest) = nsum (nsum crr) l + nsum crr x + nsum (nsum crr) rest.
Proof. intros. rewrite nsum_app, nsum_cons. lia. Qed.
Lemma forallb_at : forall {A} (f : A -> bool) l x rest, forallb (forallb f) (l ++ x :: rest) = forallb (forallb f) l && (forallb f x && forallb (forallb f) rest).
Proof. intros. rewrite forallb_app. reflexivity. Qed.
Lemma Forall_at : forall {A} (f : A -> Prop) l x rest, Forall (Forall f) (l ++ x :: rest) <-> Forall (Forall f) l /\ Forall f x /\ Forall (Forall f) rest.
Proof. intros. rewrite Forall_app. split; [intros [A1 A2]; inversion A2; auto|intros (A1 & A2 & A3); split; [exact A1|constructor; assumption]]. Qed.
Lemma user_crr : forall u, is_ruser u = true -> crr u = 0.
Proof. destruct u as [it|it| | |c]; try discriminate; reflexivity. Qed.

(** Something is put on a thread. *)
Lemma m_rpush : forall ptr up dn gone r l u stack rest rtr rtodo tasks runs rtodo' tasks' runs' c,
  inv ptr up dn gone r (l ++ (u :: stack) :: rest) rtr rtodo tasks runs ->
  rcall c = true -> no_in c = true -> fit c -> rfit c -> (runs' = [] -> runs = [] /\ rearly c = true) ->
  Forall (act_ok ptr) rtodo' -> Forall (task_ok ptr) tasks' -> runs_ok ptr runs' ->
  nsum toka rtodo' + nsum tokt tasks' + started runs' = nsum toka rtodo + nsum tokt tasks + started runs ->
  nsum cra rtodo' + nsum crt tasks' + crr c + nsum run_n runs' <= nsum cra rtodo + nsum crt tasks + nsum run_n runs ->
  (rtodo = [] -> tasks = [] -> runs = [] -> rtodo' = [] /\ tasks' = [] /\ runs' = []) ->
  inv ptr up dn gone r (l ++ (c :: u :: stack) :: rest) rtr rtodo' tasks' runs'.
Proof.
  intros ptr up dn gone r l u stack rest rtr rtodo tasks runs rtodo' tasks' runs' c [] Rc Ni Fi Fr Re A T Ro Tk Cr D. constructor; try assumption.
  - eapply rinv_held; [exact a_rinv0|]. apply held_push. apply call_holds. exact Rc.
  - apply sinv_call; [exact a_rser0|apply call_wait; exact Rc|apply call_holds; exact Rc].
  - destruct a_rno0 as (N1 & N2 & N3 & N4). split; [|split; [|split; assumption]].
    + rewrite forallb_at in *. cbn [forallb] in *. rewrite Ni. exact N1.
    + rewrite Forall_at in *. destruct N2 as (F1 & F2 & F3). split; [exact F1|]. split; [constructor; assumption|exact F3].
  - destruct a_read0 as [N2 N3]. split; [|exact N3]. rewrite Forall_at in *. destruct N2 as (F1 & F2 & F3). split; [exact F1|]. split; [constructor; assumption|exact F3].
  - intro E. destruct (Re E) as [E' Er]. destruct (a_rq0 E') as (Q1 & Q2 & Q3 & Q4). split; [exact Q1|]. split; [exact Q2|]. split; [|exact Q4]. rewrite forallb_at in *. cbn [forallb] in *. rewrite Er. exact Q3.
  - unfold started in Tk. destruct K; lia.
  - rewrite crr_at in *. rewrite nsum_cons. lia.
Qed.
Lemma m_rreturn : forall ptr up dn gone r l u stack rest rtr rtodo tasks runs,
  inv ptr up dn gone r (l ++ (u :: stack) :: rest) rtr rtodo tasks runs -> is_ruser u = true ->
  inv ptr up dn gone r (l ++ stack :: rest) rtr rtodo tasks runs.
Proof.
  intros ptr up dn gone r l u stack rest rtr rtodo tasks runs [] U. constructor; try assumption.
  - eapply rinv_held; [exact a_rinv0|]. symmetry. apply held_pop. apply user_holds. exact U.
  - eapply sinv_return; eassumption.
  - destruct a_rno0 as (N1 & N2 & N3 & N4). split; [|split; [|split; assumption]].
    + rewrite forallb_at in *. cbn [forallb] in *. rewrite !andb_true_iff in *. tauto.
    + rewrite Forall_at in *. destruct N2 as (F1 & F2 & F3). split; [exact F1|]. split; [inversion F2; assumption|exact F3].
  - destruct a_read0 as [N2 N3]. split; [|exact N3]. rewrite Forall_at in *. destruct N2 as (F1 & F2 & F3). split; [exact F1|]. split; [inversion F2; assumption|exact F3].
  - intro E. destruct (a_rq0 E) as (Q1 & Q2 & Q3 & Q4). split; [exact Q1|]. split; [exact Q2|]. split; [|exact Q4]. rewrite forallb_at in *. cbn [forallb] in *. rewrite !andb_true_iff in *. tauto.
  - rewrite crr_at in *. rewrite nsum_cons, (user_crr u U) in a_cred0. exact a_cred0.
Qed.

Lemma nsum_asked : forall it, nsum idn (asked it) = crr it.
Proof. destruct it as [it|it| | |c]; try reflexivity. destruct c; try reflexivity. cbn. unfold idn. lia. Qed.
Lemma crr_flat : forall its, flat_map asked its = [] -> nsum crr its = 0.
Proof. induction its as [|x l IH]; [reflexivity|]. cbn [flat_map]. intro E. apply app_eq_nil in E. destruct E as [E1 E2]. rewrite nsum_cons, (IH E2), <- nsum_asked, E1. reflexivity. Qed.
Lemma crr_flats : forall new, flat_map (flat_map asked) new = [] -> nsum (nsum crr) new = 0.
Proof. induction new as [|x l IH]; [reflexivity|]. cbn [flat_map]. intro E. apply app_eq_nil in E. destruct E as [E1 E2]. rewrite nsum_cons, (IH E2), (crr_flat x E1). reflexivity. Qed.

Lemma m_rstep : forall ini ptr up dn gone r l it stack rest rtr rtodo tasks runs st' its new evs,
  inv ptr up dn gone r (l ++ (it :: stack) :: rest) rtr rtodo tasks runs -> rstep ini r it = Some (st', its, new, evs) ->
  (begins it = true -> idle (l ++ (it :: stack) :: rest) = true) ->
  Forall good (rsent evs) /\ inv ptr up (dn ++ map inl (rsent evs)) gone st' (l ++ (its ++ stack) :: rest ++ new) (rtr ++ evs) rtodo tasks runs.
Proof.
  intros ini ptr up dn gone r l it stack rest rtr rtodo tasks runs st' its new evs [] X B.
  destruct a_rno0 as (N1 & N2 & N3 & N4 & N5). rewrite forallb_at in N1. cbn [forallb] in N1. rewrite !andb_true_iff in N1. destruct N1 as (NL & (NI & NS) & NR). apply Forall_at in N2. destruct N2 as (FL & FS & FR). inversion FS as [|? ? FI FS']; subst.
  assert (So : sound it = true). { assert (Z := s_sound _ _ _ _ a_rser0). rewrite forallb_at in Z. cbn [forallb] in Z. rewrite !andb_true_iff in Z. tauto. }
  destruct (r_step sr gin sid ini r it st' its new evs NI FI So N3 X) as (R1 & R2 & R3 & R4 & R5 & R6 & R7 & R8 & R9 & R10).
  destruct a_read0 as [M1 M2]. apply Forall_at in M1. destruct M1 as (ML & MS & MR). inversion MS as [|? ? MI MS']; subst. destruct (r_read sr gin sid ini r it st' its new evs NI MI So N3 X) as (W1 & W2 & W3).
  assert (I' := inv_step sr gin sid ini _ _ _ _ _ _ _ _ _ _ a_rinv0 X B). assert (S' := sinv_step sr gin sid ini _ _ _ _ _ _ _ _ _ _ a_rser0 X B (v_one _ _ _ I')).
  assert (Cl : Forall sendable_call (out_calls (rtr ++ evs))) by (rewrite calls_app; apply Forall_app; split; assumption).
  assert (Rd : Forall readable_call (out_calls (rtr ++ evs))) by (rewrite calls_app; apply Forall_app; split; assumption).
  assert (Ga : Forall answer_ok (rsent evs)).
  { assert (Z := answer_oks _ Cl Rd). rewrite (s_answer _ _ _ _ S'), answers_app in Z. apply Forall_app in Z. destruct Z as [Z _]. apply Forall_app in Z. destruct Z as [_ Z]. rewrite <- R6 in Z. exact Z. }
  assert (Rs : rsent evs = sent_frames evs) by reflexivity.
  assert (Qs : runs = [] -> f_sub (r_out st') = false /\ r_sub st' = false /\ forallb (forallb rearly) (l ++ (its ++ stack) :: rest ++ new) = true /\ sent_frames evs = []).
  { intro E. destruct (a_rq0 E) as (Q1 & Q2 & Q3 & Q4). rewrite forallb_at in Q3. cbn [forallb] in Q3. rewrite !andb_true_iff in Q3. destruct Q3 as (QL & (QI & QS) & QR).
    destruct (rearly_step sr gin sid ini r it st' its new evs QI Q1 N3 Q2 X) as (Z1 & Z2 & -> & -> & Z3). split; [exact Z1|]. split; [exact Z2|]. split; [|exact Z3]. rewrite forallb_at. cbn [app]. rewrite app_nil_r, QL, QS, QR. reflexivity. }
  assert (Kn : K = None -> rsent evs = []).
  { intro E. rewrite Rs. assert (runs = []) as Er. { destruct runs as [|[[[h d] m] n] q]; [reflexivity|]. inversion a_runs0 as [|? ? Z _]; subst. destruct Z as [Z _]. congruence. } destruct (Qs Er) as (_ & _ & _ & Z). exact Z. }
  split; [eapply Forall_impl; [|exact Ga]; intros f [[Z _] _]; exact Z|]. constructor; try assumption.
  - destruct a_dn0 as [[D1 Dc] D2]. split; [split; [apply strangers_inl; exact D1|apply calm_inl; exact Dc]|]. rewrite ours_app, ours_inl. apply Forall_app. split; assumption.
  - split; [|split; [|split; [|split]]].
    + rewrite forallb_at, !forallb_app, NL, R1, NS, NR, R2. reflexivity.
    + apply Forall_at. split; [exact FL|]. split; [apply Forall_app; split; assumption|apply Forall_app; split; assumption].
    + exact R5.
    + rewrite sent_app, answers_app, N4, R6. reflexivity.
    + exact Cl.
  - split; [|exact Rd]. apply Forall_at. split; [exact ML|]. split; [apply Forall_app; split; assumption|apply Forall_app; split; assumption].
  - intro E. destruct (Qs E) as (Z1 & Z2 & Z3 & Z4). destruct (a_rq0 E) as (_ & _ & _ & Z5). split; [exact Z1|]. split; [exact Z2|]. split; [exact Z3|]. rewrite sent_app, Z5, Z4. reflexivity.
  - rewrite ours_app, ours_inl, app_assoc. destruct K as [h|] eqn:EK; [rewrite a_link0, sent_app; reflexivity|]. rewrite (Kn eq_refl), app_nil_r. exact a_link0.
  - rewrite ours_app, ours_inl, a_tok0. destruct K as [h|] eqn:EK; [reflexivity|]. rewrite (Kn eq_refl), app_nil_r. reflexivity.
  - rewrite crr_at in *. rewrite nsum_cons in a_cred0. rewrite !nsum_app, net_requests_app, nsum_app, R8, nsum_asked, (crr_flat _ R9), (crr_flats _ R10). lia.
Qed.

(** A refusal is sent. *)
Lemma m_tsend : forall ptr up dn gone r rths rtr rtodo a b runs f, inv ptr up dn gone r rths rtr rtodo (a ++ TSend f :: b) runs ->
  good f /\ inv ptr up (dn ++ [inl f]) gone r rths rtr rtodo (a ++ b) runs.
Proof.
  intros ptr up dn gone r rths rtr rtodo a b runs f []. assert (T := a_tasks0). apply Forall_app in T. destruct T as [T1 T2]. inversion T2 as [|? ? Tf T3]; subst. destruct Tf as [Kn Ef]. subst f. destruct (refusal_good sid md Sid) as [G A].
  split; [exact G|]. constructor; try assumption.
  - destruct a_dn0 as [[D1 Dc] D2]. split; [split; [apply (strangers_inl sid dn [refusal]); exact D1|apply (calm_inl dn [refusal]); exact Dc]|]. rewrite ours_app. apply Forall_app. split; [exact D2|]. constructor; [exact refusal_ok|constructor].
  - apply Forall_app. split; assumption.
  - rewrite Kn in *. rewrite ours_app, app_assoc. apply Forall_app. split; [exact a_link0|]. constructor; [reflexivity|constructor].
  - rewrite ours_app, app_assoc. rewrite Kn in *. rewrite !nsum_app, nsum_cons in *. rewrite (app_length (gone ++ ours dn)). cbn [ours flat_map app length tokt] in *. lia.
  - rewrite !nsum_app, nsum_cons in *. cbn [crt] in *. lia.
Qed.

(** A frame arrives. *)
Lemma up_cases : forall f, up_frame f -> (exists n, f = with_n req n) \/ is_request f = false /\ Forall (act_ok []) (doing sid f) /\ nsum toka (doing (H:=H) sid f) = 0 /\ nsum (@cra H) (doing sid f) = credit f /\ tok f = 0.
Proof.
  intros f U. destruct U as [[n E]|[[n E]|E]]; subst f; [left; eauto|right|right]; repeat split; repeat constructor. cbn. lia.
Qed.
Lemma m_rrecv_request : forall ptr up dn gone r rths rtr tasks runs n l, inv ptr (inl (with_n req n) :: up) dn gone r rths rtr [] tasks runs ->
  match K with Some h => exists q, l = [ARegister sid; ARun RS h sid data (handler_metadata wr RS md) q (u32z n)] | None => l = [ASend refusal] end ->
  inv ptr up dn gone r rths rtr l tasks runs.
Proof.
  intros ptr up dn gone r rths rtr tasks runs n l [] L. destruct a_up0 as [U1 U2]. cbn [ours flat_map app] in *. fold (ours up) in *. inversion U2 as [|? ? [Uf Ui] U3]; subst. constructor; try assumption.
  - split; [inversion U1; assumption|exact U3].
  - destruct K as [h|]; [destruct L as [q ->]|subst l].
    + constructor; [exact Logic.I|]. constructor; [|constructor]. split; [reflexivity|]. repeat split. eexists. split; [exact Ui|reflexivity].
    + constructor; [|constructor]. split; reflexivity.
  - rewrite a_tok0, nsum_cons. destruct K as [h|]; [destruct L as [q ->]|subst l]; rewrite ?nsum_cons, ?nsum_nil; cbn [tok toka with_n]; lia.
  - rewrite nsum_cons in a_cred0. destruct K as [h|]; [destruct L as [q ->]|subst l]; rewrite ?nsum_cons, ?nsum_nil in *; cbn [cra credit with_n rf_initial_n] in *; lia.
Qed.
Lemma m_rrecv_other : forall ptr up dn gone r rths rtr tasks runs f l, inv ptr (inl f :: up) dn gone r rths rtr [] tasks runs -> is_request f = false ->
  l = doing sid f \/ l = [] -> inv ptr up dn gone r rths rtr l tasks runs.
Proof.
  intros ptr up dn gone r rths rtr tasks runs f l [] R L. destruct a_up0 as [U1 U2]. cbn [ours flat_map app] in *. fold (ours up) in *. inversion U2 as [|? ? [Uf Ui] U3]; subst.
  destruct (up_cases f Uf) as [[n ->]|(_ & A1 & A2 & A3 & A4)]; [discriminate R|].
  assert (L' : Forall (act_ok ptr) l /\ nsum toka l = 0 /\ nsum cra l <= credit f). { destruct L as [->| ->]; [|repeat split; [constructor|apply N.le_0_l]]. split; [apply (act_mono wr sid data md K [] ptr); exact A1|]. split; [exact A2|]. rewrite A3. apply N.le_refl. }
  destruct L' as (L1 & L2 & L3). constructor; try assumption.
  - split; [inversion U1; assumption|exact U3].
  - rewrite a_tok0, nsum_cons, A4, L2, nsum_nil. lia.
  - rewrite nsum_cons, nsum_nil in a_cred0. lia.
Qed.
Lemma m_rskip : forall ptr up b dn gone r rths rtr rtodo tasks runs, inv ptr (inr b :: up) dn gone r rths rtr rtodo tasks runs ->
  foreign sid b /\ inv ptr up dn gone r rths rtr rtodo tasks runs.
Proof. intros ptr up b dn gone r rths rtr rtodo tasks runs []. destruct a_up0 as [A B]. split; [inversion A; assumption|]. constructor; try assumption. split; [inversion A; assumption|exact B]. Qed.

(** ** All moves *)
Lemma act_forall : forall ptr a l, Forall (act_ok ptr) (a :: l) -> act_ok ptr a /\ Forall (act_ok ptr) l.
Proof. intros ptr a l F. inversion F; auto. Qed.
Lemma snoc_task : forall ptr l t, Forall (task_ok ptr) l -> task_ok ptr t -> Forall (task_ok ptr) (l ++ [t]).
Proof. intros ptr l t F T. apply Forall_app. split; [exact F|]. constructor; [exact T|constructor]. Qed.
Lemma started_snoc : forall runs x, K <> None -> started (runs ++ [x]) = started runs + 1.
Proof. intros runs x N. unfold started. destruct K; [|congruence]. rewrite app_length. cbn [length]. lia. Qed.

Ltac fields := cbn [c_p c_pths c_ptr c_ptodo c_preg c_up c_down c_r c_rths c_rtr c_rtodo c_rreg c_tasks c_runs set_p set_r set_pths set_rths] in *; rewrite ?app_nil_r in *.

Definition half (up dn : line) (gone : list frame) (c : conf H) : Prop :=
  c_up c = encode up /\ c_down c = encode dn /\ inv (c_ptr c) up dn gone (c_r c) (c_rths c) (c_rtr c) (c_rtodo c) (c_tasks c) (c_runs c).
Lemma move_sys : forall up dn gone c m c', half up dn gone c -> theirs m = true -> allowed sid c m -> match m with MRCall _ f => readable_call f | MDown bs => wf bs | _ => True end ->
  do_move wr wr tr tr sr sr no_cb sid data md c m = Some c' -> c_ptr c' = c_ptr c /\ exists up' dn', half up' dn' gone c'.
Proof.
  intros up dn gone c m c' (Eu & Ed & I) Th A W X. destruct c as [p pths ptr ptodo preg cup cdn r rths rtr rtodo rreg tasks runs].
  assert (Ptr : c_ptr c' = ptr).
  { clear - X Th. destruct m as [i f|i|i| | |i f|i|i| | |j i|bs|bs]; try discriminate Th; cbn [do_move] in X; fields; repeat match type of X with context [match ?e with _ => _ end] => destruct e end; try discriminate X; injection X as <-; reflexivity. }
  split; [exact Ptr|]. enough (G : exists up' dn', half up' dn' gone c') by exact G. unfold half. rewrite Ptr. clear Ptr.
  destruct m as [i f|i|i| | |i f|i|i| | |j i|bs|bs]; try discriminate Th; cbn [do_move] in X; fields.
  - (* MRCall *) destruct (CallModel.cut i rths) as [[[l x] rest]|] eqn:Cu; [|discriminate X]. destruct x as [|u stack]; [discriminate X|]. destruct (is_ruser u && rcalls f) eqn:B; [|discriminate X]. apply andb_true_iff in B. destruct B as [Bu Bf]. injection X as <-. destruct (cut_inv _ _ _ _ _ Cu) as [-> _].
    exists up, dn. fields. split; [exact Eu|]. split; [exact Ed|]. assert (I0 := I). destruct I0. eapply m_rpush with (1 := I); try assumption; try reflexivity; [intro Z; split; [exact Z|exact Bf]| |auto]. cbn [crr]. lia.
  - (* MRReturn *) destruct (CallModel.cut i rths) as [[[l x] rest]|] eqn:Cu; [|discriminate X]. destruct x as [|u stack]; [discriminate X|]. destruct stack as [|it stack]; [discriminate X|]. destruct (is_ruser u) eqn:Bu; [|discriminate X]. injection X as <-. destruct (cut_inv _ _ _ _ _ Cu) as [-> _].
    exists up, dn. fields. split; [exact Eu|]. split; [exact Ed|]. eapply m_rreturn; eassumption.
  - (* MRStep *) destruct (CallModel.cut i rths) as [[[l x] rest]|] eqn:Cu; [|discriminate X]. destruct x as [|it stack]; [discriminate X|]. destruct (cut_inv _ _ _ _ _ Cu) as [-> Nt]. cbn [allowed] in A. fields.
    match type of X with match ResponderModel.rstep _ _ _ ?ini _ _ with _ => _ end = _ => destruct (ResponderModel.rstep sr gin sid ini r it) as [[[[st its] new] evs]|] eqn:Rs end; [|discriminate X].
    destruct (m_rstep _ _ _ _ _ _ _ _ _ _ _ _ _ _ _ _ _ _ I Rs (A it stack Nt)) as [G I']. rewrite (posts_good sid _ _ G) in X. injection X as <-.
    exists up, (dn ++ map inl (rsent evs)). fields. split; [exact Eu|]. split; [rewrite encode_app, encode_inl, Ed; reflexivity|]. exact I'.
  - (* MRRecv *) destruct rths as [|x rest]; [discriminate X|]. destruct x as [|it stack]; [discriminate X|]. destruct it as [it|it| | |n]; try discriminate X. destruct it; try discriminate X. destruct stack as [|it stack]; [|discriminate X]. destruct rtodo as [|a todo]; [|discriminate X]. destruct cup as [|bs cup]; [discriminate X|].
    destruct up as [|[f|b] up]; [discriminate Eu| |]; cbn [encode map] in Eu; fold (encode up) in Eu; injection Eu as -> ->.
    + assert (Uf : up_frame f). { destruct I. destruct a_up0 as [_ U]. cbn [ours flat_map app] in U. inversion U as [|? ? [Z _] _]. exact Z. }
      destruct (up_cases f Uf) as [[n ->]|(R & _)].
      * destruct (recv_open sid data md Sid Snd wr tr rreg n K Few V) as (l & Rv & L). rewrite Rv in X. injection X as <-. exists up, dn. fields. split; [reflexivity|]. split; [exact Ed|]. eapply m_rrecv_request; eassumption.
      * assert (G : good f) by (apply (up_good sid data md); assumption). assert (Rv := recv_own sid wr tr rreg f G R). destruct rreg.
        -- rewrite Rv in X. injection X as <-. exists up, dn. fields. rewrite own_doing. split; [reflexivity|]. split; [exact Ed|]. eapply m_rrecv_other; [exact I|exact R|left; reflexivity].
        -- destruct Rv as [Rv|[e Rv]]; rewrite Rv in X; injection X as <-; exists up, dn; fields; cbn [filter]; (split; [reflexivity|]); (split; [exact Ed|]); (eapply m_rrecv_other; [exact I|exact R|right; reflexivity]).
    + destruct (m_rskip _ _ _ _ _ _ _ _ _ _ _ I) as [Fo I']. destruct (received sid wr tr rreg b) as [l|e|] eqn:Rv; [| |discriminate X].
      * assert (Fl := recv_foreign sid wr tr rreg b l Fo Rv). injection X as <-. exists up, dn. fields. rewrite Fl. auto.
      * injection X as <-. exists up, dn. fields. auto.
  - (* MRAct *) destruct rths as [|x rest]; [discriminate X|]. destruct x as [|it stack]; [discriminate X|]. destruct it as [it|it| | |n]; try discriminate X. destruct it; try discriminate X. destruct stack as [|it stack]; [|discriminate X]. destruct rtodo as [|a todo]; [discriminate X|].
    assert (I0 := I). destruct I0. destruct (act_forall _ _ _ a_todo0) as [Aa At].
    destruct a as [f|q|i|k h i d m0 q n|s f|i]; try discriminate X.
    + injection X as <-. exists up, dn. fields. split; [exact Eu|]. split; [exact Ed|]. eapply m_rset with (1 := I); [exact At|apply snoc_task; assumption| | |intro Z; discriminate Z]; rewrite nsum_app, !nsum_cons, nsum_nil; cbn [toka tokt cra crt]; lia.
    + injection X as <-. exists up, dn. fields. split; [exact Eu|]. split; [exact Ed|]. eapply m_rset with (1 := I); [exact At|assumption| | |intro Z; discriminate Z]; rewrite !nsum_cons; cbn [toka tokt cra crt]; lia.
    + destruct k; try discriminate X. injection X as <-. exists up, dn. fields. split; [exact Eu|]. split; [exact Ed|]. destruct Aa as [_ Aa]. eapply m_rset with (1 := I); [exact At|apply snoc_task; assumption| | |intro Z; discriminate Z]; rewrite nsum_app, !nsum_cons, nsum_nil; cbn [toka tokt cra crt]; lia.
    + assert (G : forall n0, rnet_call f = n0 -> (forall n1, n0 <> RNRequest n1) -> inv ptr up dn gone r ([RNetDo n0; RO FUser] :: rest) rtr todo tasks runs).
      { intros n0 E Ne. eapply (m_rpush _ _ _ _ _ [] (RO FUser) [] rest _ _ _ _ todo tasks runs (RNetDo n0) I); try assumption; try reflexivity.
        - intro Z. split; [exact Z|reflexivity].
        - rewrite nsum_cons. destruct n0; try (exfalso; eapply Ne; reflexivity); cbn [crr]; lia.
        - discriminate. }
      destruct f as [d m0| |e|n].
      * injection X as <-. exists up, dn. fields. split; [exact Eu|]. split; [exact Ed|]. eapply G; [reflexivity|discriminate].
      * injection X as <-. exists up, dn. fields. split; [exact Eu|]. split; [exact Ed|]. eapply G; [reflexivity|discriminate].
      * injection X as <-. exists up, dn. fields. split; [exact Eu|]. split; [exact Ed|]. eapply G; [reflexivity|discriminate].
      * injection X as <-. exists up, dn. fields. split; [exact Eu|]. split; [exact Ed|]. eapply m_rset with (1 := I); [exact At|apply snoc_task; [assumption|exact Logic.I]| | |intro Z; discriminate Z]; rewrite nsum_app, !nsum_cons, nsum_nil; cbn [toka tokt cra crt]; lia.
    + injection X as <-. exists up, dn. fields. split; [exact Eu|]. split; [exact Ed|]. eapply m_rset with (1 := I); [exact At|assumption| | |intro Z; discriminate Z]; rewrite !nsum_cons; cbn [toka tokt cra crt]; lia.
  - (* MTask *) destruct (CallModel.cut j tasks) as [[[a t] b]|] eqn:Cu; [|discriminate X]. destruct (cut_inv _ _ _ _ _ Cu) as [-> _]. assert (I0 := I). destruct I0. assert (Tt := a_tasks0). apply Forall_app in Tt. destruct Tt as [Ta Tb]. inversion Tb as [|? ? Tt Tb']; subst.
    destruct t as [f|h d m0 n|h d m0 n|n].
    + destruct (m_tsend _ _ _ _ _ _ _ _ _ _ _ _ I) as [G I']. rewrite (posts_good sid [f] _ (Forall_cons _ G (Forall_nil _))) in X. injection X as <-. exists up, (dn ++ [inl f]). fields. split; [reflexivity|]. split; [rewrite encode_app; reflexivity|]. exact I'.
    + injection X as <-. exists up, dn. fields. split; [reflexivity|]. split; [reflexivity|]. eapply m_rset with (1 := I); [assumption|apply Forall_app; split; [exact Ta|constructor; assumption]| | |intros _ Z; destruct a; discriminate Z]; rewrite !nsum_app, !nsum_cons; cbn [tokt crt]; lia.
    + destruct (CallModel.cut i rths) as [[[l x] rest]|] eqn:Ci; [|discriminate X]. destruct x as [|u stack]; [discriminate X|]. destruct (is_ruser u) eqn:Bu; [|discriminate X]. destruct (cut_inv _ _ _ _ _ Ci) as [-> _]. injection X as <-. exists up, dn. fields. split; [reflexivity|]. split; [reflexivity|].
      cbn [StreamInv.task_ok] in Tt. eapply m_rpush with (1 := I); try assumption; try reflexivity.
      * intro Z. destruct runs; discriminate Z.
      * apply Forall_app. split; assumption.
      * unfold runs_ok. apply Forall_app. split; [assumption|]. constructor; [exact Tt|constructor].
      * rewrite started_snoc by (destruct Tt as [Z _]; congruence). rewrite !nsum_app, nsum_cons. cbn [tokt]. lia.
      * rewrite !nsum_app, !nsum_cons, nsum_nil. cbn [crt crr run_n snd]. lia.
      * intros _ Z. destruct a; discriminate Z.
    + destruct (CallModel.cut i rths) as [[[l x] rest]|] eqn:Ci; [|discriminate X]. destruct x as [|u stack]; [discriminate X|]. destruct (is_ruser u) eqn:Bu; [|discriminate X]. destruct (cut_inv _ _ _ _ _ Ci) as [-> _]. injection X as <-. exists up, dn. fields. split; [reflexivity|]. split; [reflexivity|].
      eapply m_rpush with (1 := I); try assumption; try reflexivity.
      * intro Z. split; [exact Z|reflexivity].
      * apply Forall_app. split; assumption.
      * rewrite !nsum_app, nsum_cons. cbn [tokt]. lia.
      * rewrite !nsum_app, !nsum_cons. cbn [crt crr]. lia.
      * intros _ Z. destruct a; discriminate Z.
  - (* MUp *) injection X as <-. exists (up ++ [inr bs]), dn. fields. split; [rewrite encode_app, Eu; reflexivity|]. split; [exact Ed|]. destruct I. constructor; try assumption; rewrite ?ours_app; cbn [ours flat_map]; rewrite ?app_nil_r; try assumption. destruct a_up0 as [U1 U2]. split; [apply strangers_inr; assumption|exact U2].
  - (* MDown *) injection X as <-. exists up, (dn ++ [inr bs]). fields. split; [exact Eu|]. split; [rewrite encode_app, Ed; reflexivity|]. destruct I. constructor; try assumption; rewrite ?ours_app; cbn [ours flat_map]; rewrite ?app_nil_r; try assumption. destruct a_dn0 as [[U1 Uc] U2]. split; [split; [apply strangers_inr; assumption|apply Forall_app; split; [exact Uc|constructor; [exact W|constructor]]]|exact U2].
Qed.


(** ** What the guest does to the half *)
Lemma half_init : forall m, half [] [] [] (stream_create 0 m).
Proof.
  intro m. split; [reflexivity|]. split; [reflexivity|]. unfold stream_create. cbn [c_ptr c_r c_rths c_rtr c_rtodo c_tasks c_runs].
  assert (Q : held (repeat [RO FUser] (S m)) = []) by (induction m; [reflexivity|assumption]).
  constructor.
  - split; constructor.
  - split; [split|]; constructor.
  - constructor; rewrite ?Q; try reflexivity; [apply Nat.le_0_l|left; reflexivity|discriminate].
  - apply (sinv_init sid (S m)).
  - clear Q. split; [induction (S m); [reflexivity|assumption]|]. split; [induction (S m); [constructor|]; constructor; [repeat constructor|assumption]|]. split; [reflexivity|]. split; [reflexivity|]. constructor.
  - clear Q. split; [|constructor]. induction (S m); [constructor|]; constructor; [repeat constructor|assumption].
  - constructor.
  - constructor.
  - constructor.
  - intros _. repeat split. clear Q. induction (S m); [reflexivity|assumption].
  - destruct K; [reflexivity|constructor].
  - destruct K; reflexivity.
  - assert (Z : nsum (nsum crr) (repeat [RO FUser] (S m)) = 0) by (clear Q; induction (S m) as [|k IH]; [reflexivity|cbn [repeat]; rewrite nsum_cons, IH; reflexivity]). rewrite Z. apply N.le_refl.
Qed.
Definition own_frame (g : rframe) : Prop := g = opening sid data md \/ g = RCancel sid.
Lemma own_up : forall g, own_frame g -> go_view g = sent_as g /\ up_frame (sent_as g).
Proof. intros g [->| ->]; (split; [reflexivity|]); [left; exists 0%Z; reflexivity|right; right; reflexivity]. Qed.
Lemma psent_sent : forall l, psent (map (fun f => PSent (sent_as f)) l) = map sent_as l.
Proof. induction l as [|g l IH]; [reflexivity|]. cbn [map]. unfold psent. cbn [flat_map app]. f_equal. exact IH. Qed.
Lemma half_sends : forall up dn gone c l, half up dn gone c -> Forall own_frame l -> exists c', sends c l = Some c' /\ c_ptr c' = c_ptr c ++ map (fun f => PSent (sent_as f)) l /\
  half (up ++ map inl (map sent_as l)) dn gone c'.
Proof.
  intros up dn gone c l (Eu & Ed & I) F.
  assert (E : RustCallModel.encode_all l = Some (map wire (map sent_as l))).
  { clear - F Sid Snd. induction F as [|g l Fg Fl IH]; [reflexivity|]. destruct (own_up g Fg) as [G U]. cbn [map RustCallModel.encode_all]. rewrite (rframe_encode_wire g), G, IH; [reflexivity|]. rewrite G. exact (proj1 (up_good sid data md Sid Snd _ U)). }
  unfold sends. rewrite E. eexists. split; [reflexivity|]. split; [reflexivity|]. split; [cbn [c_up set_p]; rewrite Eu, encode_app, encode_inl; reflexivity|]. split; [exact Ed|]. cbn [set_p c_ptr c_r c_rths c_rtr c_rtodo c_tasks c_runs].
  assert (Up : Forall up_frame (map sent_as l)) by (clear - F; induction F as [|g l Fg Fl IH]; [constructor|]; cbn [map]; constructor; [apply own_up; exact Fg|exact IH]).
  destruct I. constructor; try assumption.
  - destruct a_up0 as [A B]. split; [apply strangers_inl; exact A|]. rewrite ours_app, ours_inl, psent_app, psent_sent. apply Forall_app. split.
    + eapply Forall_impl; [|exact B]. intros f [B1 B2]. split; [exact B1|]. apply in_or_app. left; exact B2.
    + apply Forall_forall. intros f Z. rewrite Forall_forall in Up. split; [apply Up; exact Z|]. apply in_or_app. right; exact Z.
  - apply act_mono; assumption.
  - apply task_mono; assumption.
  - apply runs_mono; assumption.
  - rewrite ours_app, ours_inl, psent_app, psent_sent, !nsum_app. lia.
  - rewrite ours_app, ours_inl, psent_app, psent_sent, !nsum_app. lia.
Qed.
Lemma half_take : forall up f dn gone c, half up (inl f :: dn) gone c -> answer_ok f /\ half up dn (gone ++ [f]) (set_line c (encode dn)).
Proof.
  intros up f dn gone c (Eu & Ed & []). destruct a_dn0 as [[A Ac] B]. cbn [ours flat_map app] in *. fold (ours dn) in *. split; [inversion B; assumption|]. split; [exact Eu|]. split; [reflexivity|]. cbn [set_line c_ptr c_r c_rths c_rtr c_rtodo c_tasks c_runs]. constructor; try assumption.
  - split; [split; [inversion A; assumption|inversion Ac; assumption]|inversion B; assumption].
  - rewrite <- app_assoc. exact a_link0.
  - rewrite <- app_assoc. exact a_tok0.
Qed.
Lemma half_skip : forall up b dn gone c, half up (inr b :: dn) gone c -> (foreign sid b /\ wf b) /\ half up dn gone (set_line c (encode dn)).
Proof.
  intros up b dn gone c (Eu & Ed & []). destruct a_dn0 as [[A Ac] B]. split; [split; [inversion A; assumption|inversion Ac; assumption]|]. split; [exact Eu|]. split; [reflexivity|]. cbn [set_line c_ptr c_r c_rths c_rtr c_rtodo c_tasks c_runs]. constructor; try assumption.
  split; [split; [inversion A; assumption|inversion Ac; assumption]|exact B].
Qed.
(** Before the call nothing has come. *)
Lemma half_quiet : forall up dn gone c, half up dn gone c -> psent (c_ptr c) = [] -> gone = [] /\ ours dn = [].
Proof.
  intros up dn gone c (_ & _ & []) E. rewrite E, nsum_nil in a_tok0. destruct K as [h|].
  - assert (Z : c_runs c = []) by (destruct (c_runs c); [reflexivity|cbn [length] in a_tok0; lia]). destruct (a_rq0 Z) as (_ & _ & _ & Q). rewrite Q in a_link0. apply app_eq_nil. exact a_link0.
  - apply app_eq_nil. destruct (gone ++ ours dn); [reflexivity|cbn [length] in a_tok0; lia].
Qed.

(** ** What the guest reads *)
Definition gread (n : net) : reading := match n with NNext v => GItem v | NError e => GProblem (match e with [] => RustCallModel.no_data | _ => e end) | NComplete => GEnd end.
Definition sread (s : rsig) : reading := match s with Item v => GItem v | Problem e => GProblem e | Finish => GEnd end.
Definition flow (l : list frame) : list reading := map gread (effects l).
Definition put (f : frame) : list rsig :=
  match f with
  | FPayload p => if pf_next p then [Item (pf_data p, pf_metadata p)] else []
  | FramesModel.FError _ _ e => [Problem (match e with [] => RustCallModel.no_data | _ => e end)]
  | _ => []
  end.
Definition no_finish (s : rsig) : Prop := s <> Finish.
Definition back (open : bool) (f : frame) : list rframe := match f with FPayload p => if pf_next p && negb open then [RCancel sid] else [] | _ => [] end.
Definition is_error (f : frame) : bool := match f with FramesModel.FError _ _ _ => true | _ => false end.
Lemma put_flow : forall f, is_answer f = true -> map gread (fx f) = map sread (put f) ++ (if ends_stream f then [GEnd] else []).
Proof. intros [s|s n|s co e|p|r] A; try discriminate A; [reflexivity|]. unfold fx. cbn [asks put ends_stream]. destruct (pf_next p), (pf_complete p); reflexivity. Qed.
Lemma put_finish : forall f, Forall no_finish (put f).
Proof. intros [s|s n|s co e|p|r]; cbn [put]; try constructor; try discriminate; [constructor|]. destruct (pf_next p); repeat constructor. discriminate. Qed.
Lemma flow_snoc : forall l f, flow (l ++ [f]) = flow l ++ (if ended l then [] else map gread (fx f)).
Proof. intros l f. unfold flow. rewrite effects_app, map_app. f_equal. destruct (ended l); [reflexivity|]. cbn [effects]. rewrite (app_nil_end (fx f)) at 2. destruct (ends_stream f); reflexivity. Qed.
Lemma flow_owed : forall calls, flow (answer sid calls) = to_read calls.
Proof.
  unfold answer, to_read. induction calls as [|c l IH]; [reflexivity|]. cbn [upto]. destruct c; try match goal with v : pay |- _ => destruct v as [d m] end; cbn [closes flat_map owed app reads]; try exact IH; try reflexivity.
  unfold flow in *. cbn [effects ends_stream pf_complete fx asks pf_next flat_map netc net_call pf_data pf_metadata app map gread]. f_equal. exact IH.
Qed.
Lemma flow_app : forall a b, exists d, flow (a ++ b) = flow a ++ d.
Proof. intros a b. unfold flow. rewrite effects_app, map_app. eexists. reflexivity. Qed.

Lemma wf_answer : forall f, answer_ok f -> wf (wire f).
Proof.
  intros [s|s n|s co e|p|r] [[_ A] W]; try discriminate A; cbn [wire]; rewrite !wf_app.
  - split; [apply RustCallProofs.wf_header|]. split; [apply RustCallProofs.wf_bytes4|apply W].
  - split; [apply RustCallProofs.wf_header|]. split; [apply RustCallProofs.wf_wire_md; apply W|apply W].
Qed.
Lemma sid_of : forall h f, says (go_view h) = f -> rframe_sid h = frame_sid f.
Proof. intros h f <-. destruct h as [p|s|s c x|s n|r|r|r|r]; reflexivity. Qed.
Lemma decode_answer : forall f, answer_ok f -> exists g, rframe_decode (wire f) = Ret g /\ rframe_sid g = sid /\ forall reg open,
  takes sid reg open g = (reg && negb (ends_stream f), if reg && open then put f else [], if reg then back open f else [], reg && is_error f && negb open).
Proof.
  intros f O. assert (W := wf_answer f O). destruct O as [[(R & L & S) A] T]. assert (P := parse_agree _ W). rewrite (frame_parse_wire f R L) in P. cbn [agree] in P.
  assert (Tx : readable_text (on_wire f)) by (destruct f; try discriminate A; [apply valid_iff; apply T|exact Logic.I]).
  destruct P as [[_ (h & E & Sy & C)]|[NR _]]; [|contradiction]. exists h. split; [exact E|]. rewrite (sid_of h _ Sy).
  destruct f as [s|s n|s co e|p|r]; try discriminate A; cbn [on_wire] in *; (split; [exact S|]); destruct h as [p'|s'|s' c x|s' k|r'|r'|r'|r']; try discriminate Sy; cbn [go_view says] in Sy.
  - assert (x = e) as -> by (assert (Q := f_equal (fun f => match f with FramesModel.FError _ _ x => x | _ => [] end) Sy); exact Q).
    intros [] []; reflexivity.
  - assert (Q := f_equal (fun f => match f with FPayload x => x | _ => p end) Sy). cbn beta iota in Q. subst p. intros [] []; cbn [takes pf_next pf_complete put ends_stream back is_error pf_data pf_metadata andb]; rewrite ?andb_true_r, ?andb_false_r; reflexivity.
Qed.

Record guest (ptr : list pevent) (gone : list frame) (called reg : bool) (queue : list rsig) (open : bool) (read : list reading) (trap : bool) : Prop := {
  g_fresh : called = false -> psent ptr = [] /\ gone = [] /\ reg = false /\ queue = [] /\ open = true /\ read = [] /\ trap = false;
  g_sent : called = true -> exists k, psent ptr = with_n req 0 :: repeat (FramesModel.FCancel sid) k /\ (open = true -> k = 0%nat);
  g_reg : called = true -> reg = negb (ended gone);
  g_finish : Forall no_finish queue;
  g_read : open = true -> read ++ map sread queue ++ (if ended gone && negb (ended_reading read) then [GEnd] else []) = flow gone /\ (ended_reading read = true -> queue = [] /\ ended gone = true);
  g_part : exists d, flow gone = read ++ d;
  g_trap : trap = true -> open = false /\ existsb is_error gone = true }.
Lemma guest_init : guest [] [] false false [] true [] false.
Proof. apply Build_guest; try discriminate; [intros _; repeat split|apply Forall_nil|intros _; split; [reflexivity|discriminate]|exists []; reflexivity]. Qed.
Lemma part_of : forall gone open read queue, (open = true -> read ++ map sread queue ++ (if ended gone && negb (ended_reading read) then [GEnd] else []) = flow gone /\ (ended_reading read = true -> queue = [] /\ ended gone = true)) ->
  open = true -> exists d, flow gone = read ++ d.
Proof. intros gone open read queue G O. destruct (G O) as [E _]. rewrite <- E. eexists. reflexivity. Qed.

(** ** All moves *)
Definition sys (c : qconf H) : Prop := exists up dn gone, half up dn gone (q_go c) /\ guest (c_ptr (q_go c)) gone (q_called c) (q_reg c) (q_queue c) (q_open c) (q_read c) (q_trap c).
Lemma ended_snoc : forall l x, ended_reading (l ++ [x]) = ended_reading l || match x with GEnd => true | _ => false end.
Proof. intros. unfold ended_reading. rewrite existsb_app. cbn [existsb]. rewrite orb_false_r. reflexivity. Qed.
Lemma q_move_sys : forall c m c', sys c -> q_allowed sid c m -> q_move wr tr sr sid data md c m = Some c' -> sys c'.
Proof.
  intros c m c' (up & dn & gone & Ha & G) A X. destruct c as [go called reg queue open read trap]. cbn [q_go q_called q_reg q_queue q_open q_read q_trap] in *.
  destruct m as [ | | | |m]; cbn [q_move q_go q_called q_reg q_queue q_open q_read q_trap] in X; try (destruct trap; [discriminate X|]).
  - (* QCall *) destruct called; [discriminate X|]. destruct (half_sends _ _ _ _ [opening sid data md] Ha (Forall_cons _ (or_introl eq_refl) (Forall_nil _))) as (go' & S & Pt & Ha'). rewrite S in X. injection X as <-. eexists _, _, _. split; [exact Ha'|]. cbn [q_go q_called q_reg q_queue q_open q_read q_trap]. destruct G. destruct (g_fresh0 eq_refl) as (P & -> & -> & -> & -> & -> & _). rewrite Pt. constructor; try discriminate.
    + intros _. exists 0%nat. rewrite psent_app, P. split; reflexivity.
    + reflexivity.
    + constructor.
    + intros _. split; [reflexivity|discriminate].
    + exists []. reflexivity.
  - (* QGive *) destruct (c_down go) as [|bs down] eqn:Dn; [discriminate X|]. destruct dn as [|[f|b] dn].
    + destruct Ha as (_ & Z & _). rewrite Dn in Z. discriminate Z.
    + destruct (half_take _ _ _ _ _ Ha) as [O Ha']. assert (Z : bs = wire f /\ down = encode dn) by (destruct Ha as (_ & Z & _); rewrite Dn in Z; injection Z as -> ->; split; reflexivity). destruct Z as [-> ->].
      destruct (decode_answer f O) as (h & E & Si & T). rewrite E, Si, N.eqb_refl, T in X.
      destruct called eqn:Ca. 2: { exfalso. destruct G. destruct (g_fresh0 eq_refl) as (P & _). destruct (half_quiet _ _ _ _ Ha P) as [_ Q]. discriminate Q. }
      assert (Fb : Forall own_frame (if reg then back open f else [])). { destruct reg; [|constructor]. destruct f; try constructor. cbn [back]. destruct (pf_next p && negb open); constructor; [right; reflexivity|constructor]. }
      destruct (half_sends _ _ _ _ _ Ha' Fb) as (go' & S & Pt & Ha''). rewrite S in X. injection X as <-. eexists _, _, _. split; [exact Ha''|]. cbn [q_go q_called q_reg q_queue q_open q_read q_trap]. rewrite Pt. cbn [set_line c_ptr]. destruct G.
      assert (R := g_reg0 eq_refl). destruct O as [[_ An] _]. constructor.
      * discriminate.
      * intros _. destruct (g_sent0 eq_refl) as (k & P & Z). rewrite psent_app, psent_sent, P. destruct (if reg then back open f else []) as [|x l] eqn:B; [exists k; rewrite app_nil_r; split; [reflexivity|exact Z]|].
        assert (Bk : (x :: l) = [RCancel sid] /\ open = false). { destruct reg; [|discriminate B]. destruct f; try discriminate B. cbn [back] in B. destruct (pf_next p && negb open) eqn:Bn; [|discriminate B]. apply andb_true_iff in Bn. destruct Bn as [_ Bn]. split; [congruence|]. destruct open; [discriminate Bn|reflexivity]. }
        destruct Bk as [Bk ->]. rewrite Bk. exists (k + 1)%nat. cbn [app map sent_as]. rewrite repeat_app. split; [reflexivity|discriminate].
      * intros _. rewrite ended_app, R. cbn [ended existsb]. rewrite orb_false_r, negb_orb. reflexivity.
      * apply Forall_app. split; [exact g_finish0|]. destruct (reg && open); [apply put_finish|constructor].
      * intro Op. destruct (g_read0 Op) as [Q1 Q2]. rewrite Op, andb_true_r, map_app, flow_snoc, ended_app, R. cbn [ended existsb]. rewrite orb_false_r. destruct (ended gone) eqn:Eg; cbn [negb orb andb] in *.
        -- rewrite !app_nil_r. split; [exact Q1|]. intro Z. destruct (Q2 Z) as [-> _]. split; reflexivity.
        -- rewrite app_nil_r in Q1. rewrite (put_flow f An), <- Q1, <- !app_assoc. assert (Er : ended_reading read = false) by (destruct (ended_reading read); [destruct (Q2 eq_refl) as [_ Z]; discriminate Z|reflexivity]). rewrite Er. cbn [negb]. rewrite andb_true_r. split; [reflexivity|discriminate].
      * destruct g_part0 as [d D]. destruct (flow_app gone [f]) as [e Ee]. rewrite Ee, D, <- app_assoc. eexists. reflexivity.
      * intro Z. apply andb_true_iff in Z. destruct Z as [Ze Z]. apply andb_true_iff in Ze. destruct Ze as [_ Ze]. split; [destruct open; [discriminate Z|reflexivity]|]. rewrite existsb_app. cbn [existsb]. rewrite Ze. apply orb_true_r.
    + destruct (half_skip _ _ _ _ _ Ha) as [[Fo Wf] Ha']. assert (Z : bs = b /\ down = encode dn) by (destruct Ha as (_ & Z & _); rewrite Dn in Z; injection Z as -> ->; split; reflexivity). destruct Z as [-> ->].
      destruct (rframe_decode b) as [h|e|] eqn:E; [| |discriminate X].
      * assert (Ns : (rframe_sid h =? sid) = false). { destruct Fo as (f & P & D). assert (Ag := parse_agree _ Wf). rewrite P, E in Ag. cbn [agree] in Ag. destruct Ag as [[_ (h' & E' & S & _)]|[_ Ag]]; [|discriminate Ag]. injection E' as <-. rewrite (sid_of h f S). apply N.eqb_neq. exact D. }
        rewrite Ns in X. injection X as <-. eexists _, _, _. split; [exact Ha'|exact G].
      * injection X as <-. eexists _, _, _. split; [exact Ha'|exact G].
  - (* QRead *) destruct (open && called && negb (ended_reading read)) eqn:B; [|discriminate X]. apply andb_true_iff in B. destruct B as [B Er]. apply andb_true_iff in B. destruct B as [-> ->]. destruct G. destruct (g_read0 eq_refl) as [Q1 Q2]. assert (R := g_reg0 eq_refl). rewrite Er, andb_true_r in Q1.
    destruct queue as [|s queue].
    + destruct reg; [discriminate X|]. injection X as <-. eexists _, _, _. split; [exact Ha|]. cbn [q_go q_called q_reg q_queue q_open q_read q_trap]. assert (Eg : ended gone = true) by (destruct (ended gone); [reflexivity|discriminate R]). rewrite Eg in Q1. cbn [map app] in Q1.
      assert (Rd : true = true -> (read ++ [GEnd]) ++ map sread [] ++ (if ended gone && negb (ended_reading (read ++ [GEnd])) then [GEnd] else []) = flow gone /\ (ended_reading (read ++ [GEnd]) = true -> @nil rsig = [] /\ ended gone = true)).
      { intros _. rewrite ended_snoc, orb_true_r, andb_false_r. cbn [map app]. rewrite app_nil_r. split; [exact Q1|]. intros _. split; [reflexivity|exact Eg]. }
      constructor; try assumption; try discriminate. exact (part_of _ _ _ _ Rd eq_refl).
    + inversion g_finish0 as [|? ? Fs Fq]; subst s0 l || idtac.
      assert (Rd : true = true -> (read ++ [sread s]) ++ map sread queue ++ (if ended gone && negb (ended_reading (read ++ [sread s])) then [GEnd] else []) = flow gone /\ (ended_reading (read ++ [sread s]) = true -> queue = [] /\ ended gone = true)).
      { intros _. rewrite ended_snoc. assert (Z : match sread s with GEnd => true | _ => false end = false) by (destruct s; try reflexivity; exfalso; apply Fs; reflexivity). rewrite Z, orb_false_r. rewrite Er, andb_true_r. split; [rewrite <- Q1, <- app_assoc; reflexivity|]. intro Z'. rewrite Z' in Er. discriminate Er. }
      assert (X' : mkQ go true reg queue true (read ++ [sread s]) false = c') by (destruct s; injection X as <-; reflexivity). subst c'. eexists _, _, _. split; [exact Ha|]. cbn [q_go q_called q_reg q_queue q_open q_read q_trap]. constructor; try assumption; try discriminate. exact (part_of _ _ _ _ Rd eq_refl).
  - (* QDrop *) destruct (open && called) eqn:B; [|discriminate X]. apply andb_true_iff in B. destruct B as [-> ->]. injection X as <-. eexists _, _, _. split; [exact Ha|]. cbn [q_go q_called q_reg q_queue q_open q_read q_trap]. destruct G. constructor; try assumption; try discriminate.
    + intros _. destruct (g_sent0 eq_refl) as (k & P & _). exists k. split; [exact P|discriminate].
    + constructor.
  - (* QGo *) destruct (theirs m) eqn:Th; [|discriminate X]. destruct (do_move wr wr tr tr sr sr no_cb sid data md go m) as [go'|] eqn:D; [|discriminate X]. injection X as <-. destruct A as [A W]. cbn [q_go] in A.
    destruct (move_sys _ _ _ _ _ _ Ha Th A W D) as (Pt & up' & dn' & Ha'). eexists _, _, _. split; [exact Ha'|]. cbn [q_go q_called q_reg q_queue q_open q_read q_trap]. rewrite Pt. exact G.
Qed.
Lemma reach_sys : forall c, q_reach wr tr sr sid data md c -> sys c.
Proof. intros c R. induction R as [m|c m c' R IH A X]; [exists [], [], []; split; [apply half_init|apply guest_init]|]. eapply q_move_sys; eassumption. Qed.

(** ** What it says *)
Lemma encode_nil : forall l, encode l = [] -> l = [].
Proof. destruct l; [reflexivity|discriminate]. Qed.
Lemma sys_sent : forall c, sys c -> (q_called c = false -> q_sent c = []) /\
  (q_called c = true -> exists k, q_sent c = FramesModel.FRequest (mkRequest FrameTypeRequestStream sid md data false false 0) :: repeat (FramesModel.FCancel sid) k /\ (q_open c = true -> k = 0%nat)).
Proof. intros c (up & dn & gone & Ha & []). split; [intro Z; destruct (g_fresh0 Z) as (P & _); exact P|]. intro Z. exact (g_sent0 Z). Qed.
Lemma nsum_cancels : forall {f : frame -> N} k, f (FramesModel.FCancel sid) = 0 -> nsum f (repeat (FramesModel.FCancel sid) k) = 0.
Proof. intros f k E. induction k as [|k IH]; [reflexivity|]. cbn [repeat]. rewrite nsum_cons, E, IH. reflexivity. Qed.
Lemma no_sum : forall {A} (f : A -> N) l, nsum f l = 0 -> Forall (fun x => f x = 0) l.
Proof. intros A f. induction l as [|x l IH]; [constructor|]. rewrite nsum_cons. intro E. constructor; [lia|apply IH; lia]. Qed.
Lemma sys_credit : forall c, sys c -> Forall (fun x => snd x = 0) (q_runs c) /\ Forall (fun n => n = 0) (q_credit c).
Proof.
  intros c Y. assert (T : nsum credit (psent (c_ptr (q_go c))) = 0).
  { destruct (sys_sent c Y) as [A B]. unfold q_sent in *. destruct (q_called c); [destruct (B eq_refl) as (k & -> & _)|rewrite (A eq_refl); reflexivity]. rewrite nsum_cons, nsum_cancels; reflexivity. }
  destruct Y as (up & dn & gone & (_ & _ & []) & _). rewrite T in a_cred0. split; [apply (no_sum run_n); unfold q_runs; lia|]. apply (no_sum idn). unfold q_credit. change (flat_map (fun e => match e with RNet (RNRequest n) => [n] | _ => [] end) (c_rtr (q_go c))) with (net_requests (c_rtr (q_go c))). lia.
Qed.
Lemma tok_sent : forall c, sys c -> nsum tok (psent (c_ptr (q_go c))) = if q_called c then 1 else 0.
Proof. intros c Y. destruct (sys_sent c Y) as [A B]. unfold q_sent in *. destruct (q_called c); [destruct (B eq_refl) as (k & -> & _)|rewrite (A eq_refl); reflexivity]. rewrite nsum_cons, nsum_cancels; reflexivity. Qed.
Lemma rest_read : forall c up dn gone, half up dn gone (q_go c) -> guest (c_ptr (q_go c)) gone (q_called c) (q_reg c) (q_queue c) (q_open c) (q_read c) (q_trap c) -> q_rest c -> q_called c = true -> q_open c = true -> q_read c = flow gone.
Proof.
  intros c up dn gone Ha [] (_ & _ & _ & _ & _ & Qu & En) Ca Op. destruct (g_read0 Op) as [E _]. rewrite <- E, Qu. cbn [map app]. rewrite (g_reg0 Ca) in En. destruct (ended gone); [rewrite (En eq_refl)|]; cbn [negb andb]; rewrite app_nil_r; reflexivity.
Qed.

Section Named.
Context (h : H) (Kh : K = Some h).
Lemma named_stream : forall c, sys c -> exists d, to_read (q_emitted c) = q_read c ++ d.
Proof.
  intros c (up & dn & gone & (_ & _ & []) & []). rewrite Kh in a_link0. destruct a_rno0 as (_ & _ & _ & An & _). assert (S := s_answer _ _ _ _ a_rser0).
  unfold q_emitted. rewrite <- flow_owed, S, <- An, <- a_link0, <- app_assoc. destruct (flow_app gone (ours dn ++ ResponderSerial.pending sid (c_rths (q_go c)))) as [y Y]. destruct g_part0 as [x X]. rewrite Y, X, <- app_assoc. eexists. reflexivity.
Qed.
Lemma named_rest : forall c, sys c -> q_rest c -> q_called c = true -> q_open c = true -> q_read c = to_read (q_emitted c).
Proof.
  intros c (up & dn & gone & Ha & G) Re Ca Op. rewrite (rest_read _ _ _ _ Ha G Re Ca Op). destruct Ha as (_ & Ed & []). rewrite Kh in a_link0. destruct a_rno0 as (_ & _ & _ & An & _). assert (S := s_answer _ _ _ _ a_rser0). destruct Re as (_ & Dn & _ & _ & Id & _).
  rewrite Ed in Dn. apply encode_nil in Dn. subst dn. cbn [ours flat_map] in a_link0. rewrite app_nil_r in a_link0. destruct (free_threads sid (c_rths (q_go c)) (s_sound _ _ _ _ a_rser0) (held_idle _ Id)) as [P _]. rewrite P, app_nil_r in S.
  unfold q_emitted. rewrite <- flow_owed, S, <- An, <- a_link0. reflexivity.
Qed.
Lemma named_runs : forall c, sys c -> Forall (eq (h, data, handler_metadata wr RS md, 0)) (q_runs c) /\ (length (q_runs c) <= 1)%nat /\ (q_rest c -> q_called c = true -> length (q_runs c) = 1%nat).
Proof.
  intros c Y. assert (T := tok_sent c Y). destruct (sys_credit c Y) as [C _]. unfold q_runs in *. destruct Y as (up & dn & gone & (Eu & _ & []) & _). rewrite Kh in a_tok0. split; [|split].
  - rewrite Forall_forall in *. intros [[[h' d] m] n] In. specialize (C _ In). cbn [snd] in C. subst n. destruct (a_runs0 _ In) as (A & -> & -> & _). congruence.
  - destruct (q_called c); lia.
  - intros (Up & _ & Rt & Ta & _) Ca. rewrite Ca in T. rewrite Eu in Up. apply encode_nil in Up. subst up. rewrite Rt, Ta in a_tok0. cbn [ours flat_map] in a_tok0. rewrite !nsum_nil in a_tok0. lia.
Qed.
Lemma owed_error : forall l, existsb is_error (answer sid l) = true -> exists e, In (FluxModel.FError e) l.
Proof.
  unfold answer. induction l as [|x l IH]; [discriminate|]. cbn [upto]. intro E. destruct x; try match goal with v : pay |- _ => destruct v as [d m] end; cbn [closes flat_map owed app existsb is_error orb] in E; try discriminate E; try (destruct (IH E) as [e Ie]; exists e; right; exact Ie).
  eexists. left. reflexivity.
Qed.
Lemma named_trap : forall c, sys c -> q_trap c = true -> q_open c = false /\ exists e, In (FluxModel.FError e) (q_emitted c).
Proof.
  intros c (up & dn & gone & (_ & _ & []) & []) T. destruct (g_trap0 T) as [O E]. split; [exact O|]. apply owed_error. rewrite Kh in a_link0. destruct a_rno0 as (_ & _ & _ & An & _). assert (S := s_answer _ _ _ _ a_rser0). unfold q_emitted. rewrite S, <- An, <- a_link0, !existsb_app, E. reflexivity.
Qed.
End Named.

Section Refused.
Context (Kn : K = None).
Notation message := (if len md <? 8 then invalid_metadata else not_found).
Lemma refused_runs : forall c, sys c -> q_runs c = [].
Proof. intros c (up & dn & gone & (_ & _ & []) & _). unfold q_runs. destruct (c_runs (q_go c)) as [|[[[h d] m] n] l]; [reflexivity|]. inversion a_runs0 as [|? ? Z _]. destruct Z as [Z _]. congruence. Qed.
Lemma refused_flow : forall gone, Forall (eq refusal) gone -> flow gone = match gone with [] => [] | _ => [GProblem message; GEnd] end.
Proof. intros gone F. destruct F as [|f l <- F]; [reflexivity|]. unfold flow, StreamWire.refusal. destruct (len md <? 8); reflexivity. Qed.
Lemma refused_read : forall c, sys c -> (exists d, [GProblem message; GEnd] = q_read c ++ d) /\ (q_rest c -> q_called c = true -> q_open c = true -> q_read c = [GProblem message; GEnd]).
Proof.
  intros c Y. assert (T := tok_sent c Y). destruct Y as (up & dn & gone & Ha & G). assert (Ha0 := Ha). destruct Ha0 as (Eu & Ed & []). rewrite Kn in a_link0, a_tok0. apply Forall_app in a_link0. destruct a_link0 as [Gl D]. assert (Fl := refused_flow gone Gl). split.
  - destruct G. destruct g_part0 as [d Dd]. rewrite Fl in Dd. destruct gone as [|f l]; [|eexists; exact Dd]. symmetry in Dd. apply app_eq_nil in Dd. destruct Dd as [-> _]. eexists. reflexivity.
  - intros Re Ca Op. rewrite (rest_read _ _ _ _ Ha G Re Ca Op), Fl. destruct gone as [|f l]; [|reflexivity]. exfalso. destruct Re as (Up & Dn & Rt & Ta & _). rewrite Ca in T. rewrite Eu in Up. rewrite Ed in Dn. apply encode_nil in Up, Dn. subst up dn. rewrite Rt, Ta in a_tok0. cbn [ours flat_map app length] in a_tok0. rewrite !nsum_nil in a_tok0. lia.
Qed.
End Refused.

(** A Cancel frame that the host takes. *)
Lemma sys_cancel : forall c up rest, sys c -> c_up (q_go c) = wire (FramesModel.FCancel sid) :: up -> c_rreg (q_go c) = true -> c_rtodo (q_go c) = [] -> c_rths (q_go c) = [RO FUser] :: rest ->
  exists c', q_moves wr tr sr sid data md c [QGo MRRecv; QGo MRAct] = Some c' /\ c_rths (q_go c') = [RNetDo RNComplete; RO FUser] :: rest /\ q_move wr tr sr sid data md c' (QGo (MRStep 0)) = None.
Proof.
  intros c up rest Y Eu Rg Td Th. destruct Y as (up0 & dn & gone & (_ & _ & []) & _). destruct a_rno0 as (_ & _ & Sb & _). destruct c as [go called reg queue open read trap]. destruct go as [p pths ptr ptodo preg cup cdn r rths rtr rtodo rreg tasks runs]. cbn [q_go c_up c_rreg c_rtodo c_rths c_r] in *. subst cup rreg rtodo rths.
  assert (Gd : good (FramesModel.FCancel sid)) by (apply (up_good sid data md); [assumption|assumption|right; right; reflexivity]).
  assert (Rv := recv_own sid wr tr true _ Gd eq_refl). cbn iota in Rv.
  unfold q_moves, q_move at 1. cbn [theirs q_go do_move c_rths c_rtodo c_up c_rreg]. rewrite Rv, own_doing. cbn [doing asks ends_stream map app].
  cbn [q_move theirs q_go do_move c_rths c_rtodo c_up c_rreg set_r rnet_call q_called q_reg q_queue q_open q_read q_trap]. eexists. split; [reflexivity|]. split; [reflexivity|].
  cbn [q_move theirs q_go do_move c_rths c_rtodo c_up c_rreg set_rths set_r rnet_call CallModel.cut nth_error firstn skipn c_r c_runs initial]. cbn [ResponderModel.rstep]. rewrite Sb. reflexivity.
Qed.

End Sys.

(** ** Running moves *)
Section Run.
Context {H : Type}.
Context (w : site) (tbl : ikind -> list (option H)) (sr : bool) (sid : N) (data md : bytes).
Definition readableb (c : fcall pay bytes) : bool :=
  match c with FNext (d, m) => wfb d && wfb m | FluxModel.FError e => wfb e && utf8_valid e | _ => true end.
Definition q_allowedb (c : qconf H) (m : qmove) : bool :=
  match m with
  | QGo m => StreamProofs.allowedb sid (q_go c) m && match m with MRCall _ f => readableb f | MDown bs => wfb bs | _ => true end
  | _ => true
  end.
Lemma q_allowedb_sound : forall c m, q_allowedb c m = true -> q_allowed sid c m.
Proof.
  intros c m E. destruct m as [ | | | |m]; try exact Logic.I. cbn [q_allowedb q_allowed] in *. apply andb_true_iff in E. destruct E as [E1 E2]. split; [apply StreamProofs.allowedb_sound; exact E1|].
  destruct m; try exact Logic.I; [|apply wfb_wf; exact E2]. destruct c0; try exact Logic.I; cbn [readableb readable_call] in *; [destruct v as [d m]|]; apply andb_true_iff in E2; destruct E2 as [A B]; (split; [apply wfb_wf; exact A|try apply wfb_wf; exact B]).
Qed.
Fixpoint q_run (c : qconf H) (ms : list qmove) : option (qconf H) :=
  match ms with
  | [] => Some c
  | m :: ms' => if q_allowedb c m then match q_move w tbl sr sid data md c m with Some c' => q_run c' ms' | None => None end else None
  end.
Lemma q_run_reach : forall ms c c', q_reach w tbl sr sid data md c -> q_run c ms = Some c' -> q_reach w tbl sr sid data md c'.
Proof.
  induction ms as [|m ms IH]; intros c c' R X; [injection X as <-; exact R|]. cbn [q_run] in X. destruct (q_allowedb c m) eqn:A; [|discriminate X]. destruct (q_move w tbl sr sid data md c m) as [c1|] eqn:D; [|discriminate X].
  eapply IH; [|exact X]. eapply qr_move; [exact R|apply q_allowedb_sound; exact A|exact D].
Qed.
End Run.
