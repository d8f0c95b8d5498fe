(** The moves of a channel call; what the invariant says. *)
From Coq Require Import List NArith ZArith Lia Bool ZifyBool ZifyNat ZifyN.
From Verif Require Import Base FramesModel FramesSpec InvokeModel MonoModel FluxModel FluxSpec ProxyModel ProxySpec DispatchModel DispatchSpec ResponderModel ResponderSpec ResponderProofs ResponderSerial.
From Verif Require Import StreamModel StreamSpec StreamSides StreamWire StreamInv StreamProofs ChannelModel ChannelSpec ChannelSides ChannelWire ChannelEnds ChannelLocal ChannelInv.
From Verif Require CallModel CallSpec.
Import ListNotations.
Open Scope N_scope.

(** ** Received frames and calls *)
Definition precedes {A} (a b : list A) : Prop := exists d, b = a ++ d.
Lemma precedes_refl : forall {A} (a : list A), precedes a a. Proof. intros. exists []. rewrite app_nil_r. reflexivity. Qed.
Lemma precedes_trans : forall {A} (a b c : list A), precedes a b -> precedes b c -> precedes a c.
Proof. intros A a b c [x ->] [y ->]. exists (x ++ y). rewrite app_assoc. reflexivity. Qed.

Section Lists.
Context (g : fcfg) (sid : N).
Lemma exp_app : forall l l' : list (fcall pay bytes), precedes (expected g l) (expected g (l ++ l')).
Proof. intros l l'. rewrite (expected_app g). eexists. reflexivity. Qed.
Lemma exp_snoc : forall (l l' : list (fcall pay bytes)) c, existsb closes l = existsb closes l' -> expected g l = expected g l' -> expected g (l ++ [c]) = expected g (l' ++ [c]).
Proof. intros l l' c C E. rewrite !(expected_app g), C, E. reflexivity. Qed.
Lemma answer_cut : forall calls k rest, answer sid calls = k ++ rest -> exists calls', precedes calls' calls /\ answer sid calls' = k /\ existsb closes calls' = ended k /\ existsb closes calls' = existsb closes (map fc (effects k)).
Proof.
  unfold answer. induction calls as [|c l IH]; intros k rest E.
  - cbn [upto flat_map] in E. symmetry in E. apply app_eq_nil in E. destruct E as [-> _]. exists []. split; [apply precedes_refl|repeat split].
  - destruct k as [|f k]; [exists []; split; [eexists; reflexivity|repeat split]|]. cbn [upto] in E. destruct (closes c) eqn:C; cbn [flat_map] in E.
    + exists [c]. split; [exists l; reflexivity|]. cbn [upto]. rewrite C. cbn [flat_map]. destruct c; try destruct v; cbn [owed app] in *; try discriminate E; try discriminate C; injection E as <- E; symmetry in E; apply app_eq_nil in E; destruct E as [-> _]; repeat split.
    + assert (D : exists k', f :: k = owed sid c ++ k' /\ flat_map (owed sid) (upto l) = k' ++ rest).
      { destruct c; try destruct v; cbn [owed app] in *; try discriminate C; try (exists (f :: k); split; [reflexivity|exact E]). injection E as <- E. exists k. split; [reflexivity|exact E]. }
      destruct D as (k' & Ek & El). destruct (IH k' rest El) as (l' & [d P] & A & B1 & B2). exists (c :: l'). split; [exists d; rewrite P; reflexivity|]. cbn [upto existsb]. rewrite C. cbn [flat_map orb]. rewrite A, Ek. split; [reflexivity|]. destruct c; try destruct v; try discriminate C; cbn [owed app]; auto.
Qed.
Lemma no_cancels : forall l, existsb is_cancel l = false -> Forall (fun f => f <> FramesModel.FCancel (frame_sid f)) l.
Proof. induction l as [|f l IH]; [constructor|]. cbn [existsb]. intro E. apply orb_false_iff in E. destruct E as [E1 E2]. constructor; [|exact (IH E2)]. intro Z. rewrite Z in E1. discriminate E1. Qed.
Lemma cancel_split : forall l, existsb is_cancel l = true -> exists a i b, l = a ++ FramesModel.FCancel i :: b /\ existsb is_cancel a = false.
Proof.
  induction l as [|f l IH]; [discriminate|]. cbn [existsb]. destruct (is_cancel f) eqn:C; cbn [orb]; intro E.
  - destruct f as [i| | | |]; try discriminate C. exists [], i, l. split; reflexivity.
  - destruct (IH E) as (a & i & b & -> & A). exists (f :: a), i, b. split; [reflexivity|]. cbn [existsb]. rewrite C. exact A.
Qed.
(** Frames without a Cancel. *)
Lemma plain_effects : forall l rest (calls : list (fcall pay bytes)), existsb is_cancel l = false -> answer sid calls = filter is_answer l ++ rest -> precedes (expected g (map fc (effects l))) (expected g calls).
Proof.
  intros l rest calls C E. destruct (effects_answers l (no_cancels l C)) as [E1 _]. rewrite <- E1, <- (effects_owed g sid calls). fold (answer sid calls). rewrite E. destruct (prefix_effects g (filter is_answer l) rest) as [d D]. exists d. exact D.
Qed.
Lemma plain_effects_all : forall l (calls : list (fcall pay bytes)), existsb is_cancel l = false -> answer sid calls = filter is_answer l -> expected g (map fc (effects l)) = expected g calls.
Proof. intros l calls C E. destruct (effects_answers l (no_cancels l C)) as [E1 _]. rewrite <- E1, <- (effects_owed g sid calls). fold (answer sid calls). rewrite E. reflexivity. Qed.
(** Any frames. *)
Lemma cut_effects : forall l rest (calls : list (fcall pay bytes)), answer sid calls = filter is_answer l ++ rest -> exists k, precedes k calls /\ precedes (expected g (map fc (effects l))) (expected g (k ++ [FComplete])).
Proof.
  intros l rest calls E. destruct (existsb is_cancel l) eqn:C; [|exists calls; split; [apply precedes_refl|]; eapply precedes_trans; [exact (plain_effects l rest calls C E)|apply exp_app]].
  destruct (cancel_split l C) as (a & i & b & -> & Ca). rewrite filter_app, <- app_assoc in E. destruct (answer_cut _ _ _ E) as (k & P & A & O2 & O1). exists k. split; [exact P|].
  destruct (effects_answers a (no_cancels a Ca)) as [E1 E2]. rewrite effects_app, <- E1, <- E2, <- O2. rewrite <- A in O1 |- *. cbn [effects ends_stream fx asks flat_map netc net_call app]. assert (Ek := effects_owed g sid k). fold (answer sid k) in Ek.
  destruct (existsb closes k) eqn:Ck.
  - rewrite app_nil_r, Ek. apply exp_app.
  - rewrite map_app. cbn [map fc]. rewrite (exp_snoc _ k FComplete) by (congruence || exact Ek). apply precedes_refl.
Qed.
End Lists.

Section Sys.
Context {H : Type}.
Context (wp wr : site) (tp tr : ikind -> list (option H)) (sp sr : bool) (g gin : fcfg) (sid : N) (data md : bytes).
Context (Sid : sid < 2^31) (Snd : CallSpec.sendable data md) (Few : few tr) (K : option H) (V : cverdict md tr K).
Notation req := (channel_request sid data md).
Notation good := (good sid).
Notation refusal := (refusal sid md).
Notation act := (act H unit).
Notation cinv := (@cinv H wr g gin sid data md K).

Definition csys (c : cconf H) : Prop := exists up dn gone pre post e, x_up c = encode up /\ x_down c = encode dn /\
  cinv (x_p c) (x_i c) (x_pths c) (x_ptr c) (x_ptodo c) (x_preg c) (x_ptasks c) up dn gone pre post e (x_r c) (x_rths c) (x_rtr c) (x_rtodo c) (x_rreg c) (x_tasks c) (x_runs c).

Lemma hcall_pushable : forall given f, hcall given f = true -> fit f -> pushable f /\ crr f = 0 /\ (given = false -> rearly f = true).
Proof.
  intros given f C F. destruct f as [it|it| | |n]; try discriminate C; destruct it as [|n|c|c|on e| | |n|n|n|sg|sg]; try discriminate C.
  - split; [|split; [reflexivity|intros _; exact C]]. repeat split; exact F.
  - destruct c; try discriminate C; cbn [hcall] in C; rewrite C; (split; [repeat split|split; [reflexivity|discriminate]]).
Qed.
Ltac fields := cbn [x_p x_i x_pths x_ptr x_ptodo x_preg x_ptasks x_up x_down x_r x_rths x_rtr x_rtodo x_rreg x_tasks x_runs put_p put_r put_pths put_rths] in *; rewrite ?app_nil_r in *.
Ltac same up dn gone pre post e := exists up, dn, gone, pre, post, e; fields; split; [assumption|]; split; [assumption|].

Lemma move_csys : forall c m c', csys c -> callowed sid c m -> do_cmove wp wr tp tr sp sr g gin sid data md c m = Some c' -> csys c'.
Proof.
  intros c m c' (up & dn & gone & pre & post & e & Eu & Ed & I) A X. destruct c as [p i pths ptr ptodo preg ptasks cup cdn r rths rtr rtodo rreg tasks runs].
  destruct m as [k f|k|k| | |j k|k f|k|k| | |j k|bs|bs]; cbn [do_cmove] in X; fields.
  - (* XPCall *) destruct (CallModel.cut k pths) as [[[l x] rest]|] eqn:Cu; [|discriminate X]. destruct x as [|u stack]; [discriminate X|]. destruct (is_quser u && qcall f) eqn:B; [|discriminate X]. apply andb_true_iff in B. destruct B as [Bu Bf]. injection X as <-. destruct (cut_inv _ _ _ _ _ Cu) as [-> _].
    same up dn gone pre post e. destruct (pside_push g sid data md _ _ _ _ _ _ _ f (y_ps _ _ _ _ _ _ _ _ _ _ _ _ _ _ _ _ _ _ _ _ _ _ _ _ _ _ _ I) Bu (or_introl Bf)) as [P E].
    { destruct f as [f|f]; [destruct f as [f|n|]; try discriminate Bf; destruct f; exact Logic.I|]. destruct f as [f|f| | |n]; try exact Logic.I. destruct f; try exact Logic.I. exact A. }
    eapply n_pths; eassumption.
  - (* XPReturn *) destruct (CallModel.cut k pths) as [[[l x] rest]|] eqn:Cu; [|discriminate X]. destruct x as [|u stack]; [discriminate X|]. destruct stack as [|it stack]; [discriminate X|]. destruct (is_quser u) eqn:Bu; [|discriminate X]. injection X as <-. destruct (cut_inv _ _ _ _ _ Cu) as [-> _].
    same up dn gone pre post e. destruct (pside_return g sid data md _ _ _ _ _ _ _ _ (y_ps _ _ _ _ _ _ _ _ _ _ _ _ _ _ _ _ _ _ _ _ _ _ _ _ _ _ _ I) Bu) as [P E]. eapply n_pths; eassumption.
  - (* XPStep *) destruct (CallModel.cut k pths) as [[[l x] rest]|] eqn:Cu; [|discriminate X]. destruct x as [|it stack]; [discriminate X|]. destruct (qstep sp g sid data md p i it) as [[[[[p1 i1] its] new] evs]|] eqn:Qs; [|discriminate X].
    destruct (cut_inv _ _ _ _ _ Cu) as [-> Nt]. cbn [callowed] in A. fields.
    edestruct (@n_pstep H) as [G I']; try eassumption; [intros y -> B; exact (A y stack Nt B)|].
    rewrite (posts_good sid _ _ G) in X. injection X as <-. exists (up ++ map inl (qsent evs)), dn, gone, pre, post, e. fields. split; [rewrite encode_app, encode_inl, Eu; reflexivity|]. split; [exact Ed|]. exact I'.
  - (* XPRecv *) destruct pths as [|x rest]; [discriminate X|]. destruct x as [|it stack]; [discriminate X|]. destruct it as [it|it]; try discriminate X. destruct it as [it|n|]; try discriminate X. destruct it; try discriminate X. destruct stack as [|it stack]; [|discriminate X]. destruct ptodo as [|a todo]; [|discriminate X]. destruct cdn as [|bs down]; [discriminate X|].
    destruct dn as [|[f|b] dn]; [discriminate Ed| |]; cbn [encode map] in Ed; fold (encode dn) in Ed; injection Ed as -> ->.
    + edestruct (@n_precv H) as [Sf I']; try eassumption; try reflexivity. destruct (side_good sid Sid f Sf) as [G An]. assert (Rv := recv_own sid wp tp preg f G An). destruct preg.
      * rewrite Rv in X. injection X as <-. exists up, dn, (gone ++ [f]), pre, post, e. fields. rewrite own_doing. auto.
      * destruct Rv as [Rv|[e0 Rv]]; rewrite Rv in X; injection X as <-; exists up, dn, (gone ++ [f]), pre, post, e; fields; cbn [filter]; auto.
    + edestruct (@n_pskip H) as [Fo I']; try eassumption; try reflexivity. destruct (received sid wp tp preg b) as [l|e0|] eqn:Rv; [| |discriminate X].
      * assert (Fl := recv_foreign sid wp tp preg b l Fo Rv). injection X as <-. exists up, dn, gone, pre, post, e. fields. rewrite Fl. auto.
      * injection X as <-. exists up, dn, gone, pre, post, e. fields. auto.
  - (* XPAct *) destruct pths as [|x rest]; [discriminate X|]. destruct x as [|it stack]; [discriminate X|]. destruct it as [it|it]; try discriminate X. destruct it as [it|n|]; try discriminate X. destruct it; try discriminate X. destruct stack as [|it stack]; [|discriminate X]. destruct ptodo as [|a todo]; [discriminate X|]. destruct a as [f|q|j|k0 h j d m0 q n|s f|j]; try discriminate X.
    + destruct f as [d m0| |e0|n].
      * injection X as <-. same up dn gone pre post e. eapply n_pact_call; first [eassumption|reflexivity].
      * injection X as <-. same up dn gone pre post e. eapply n_pact_call; first [eassumption|reflexivity].
      * injection X as <-. same up dn gone pre post e. eapply n_pact_call; first [eassumption|reflexivity].
      * injection X as <-. same up dn gone pre post e. eapply n_pact_ask; eassumption.
    + injection X as <-. same up dn gone pre post e. eapply n_pact_remove; eassumption.
  - (* XPTask *) destruct (CallModel.cut j ptasks) as [[[a n] b]|] eqn:Cj; [|discriminate X]. destruct (CallModel.cut k pths) as [[[l x] rest]|] eqn:Cu; [|discriminate X]. destruct x as [|u stack]; [discriminate X|]. destruct (is_quser u) eqn:Bu; [|discriminate X]. injection X as <-. destruct (cut_inv _ _ _ _ _ Cu) as [-> _]. destruct (cut_inv _ _ _ _ _ Cj) as [-> _].
    same up dn gone pre post e. eapply n_ptask; eassumption.
  - (* XRCall *) destruct (CallModel.cut k rths) as [[[l x] rest]|] eqn:Cu; [|discriminate X]. destruct x as [|u stack]; [discriminate X|]. match type of X with (if ?b then _ else _) = _ => destruct b eqn:B end; [|discriminate X]. apply andb_true_iff in B. destruct B as [Bu Bf]. injection X as <-. destruct (cut_inv _ _ _ _ _ Cu) as [-> _].
    same up dn gone pre post e. assert (Fi : fit f) by (destruct f as [f|f| | |n]; try exact Logic.I; destruct f; try exact Logic.I; exact A). destruct (hcall_pushable _ _ Bf Fi) as (P1 & P2 & P3).
    destruct (rside_push gin sid _ _ _ _ _ _ f (y_rs _ _ _ _ _ _ _ _ _ _ _ _ _ _ _ _ _ _ _ _ _ _ _ _ _ _ _ I)) as [P E]; [rewrite (ruser_rit u Bu); reflexivity|exact P1|].
    eapply n_rths; [exact Sid|exact I|exact P|exact E| |rewrite !(crr_at sid Sid), nsum_cons, P2; lia]. intros -> Z. rewrite forallb_at in *. cbn [forallb] in *. rewrite (P3 eq_refl). exact Z.
  - (* XRReturn *) destruct (CallModel.cut k rths) as [[[l x] rest]|] eqn:Cu; [|discriminate X]. destruct x as [|u stack]; [discriminate X|]. destruct stack as [|it stack]; [discriminate X|]. destruct (is_ruser u) eqn:Bu; [|discriminate X]. injection X as <-. destruct (cut_inv _ _ _ _ _ Cu) as [-> _].
    same up dn gone pre post e. destruct (rside_return gin sid _ _ _ _ _ _ _ (y_rs _ _ _ _ _ _ _ _ _ _ _ _ _ _ _ _ _ _ _ _ _ _ _ _ _ _ _ I) Bu) as [P E].
    eapply n_rths; [exact Sid|exact I|exact P|exact E| |rewrite !(crr_at sid Sid), !nsum_cons; lia]. intros _ Z. rewrite forallb_at in *. cbn [forallb] in *. rewrite !andb_true_iff in *. tauto.
  - (* XRStep *) destruct (CallModel.cut k rths) as [[[l x] rest]|] eqn:Cu; [|discriminate X]. destruct x as [|it stack]; [discriminate X|]. destruct (cut_inv _ _ _ _ _ Cu) as [-> Nt]. cbn [callowed] in A. fields.
    match type of X with match ResponderModel.rstep _ _ _ ?ini _ _ with _ => _ end = _ => destruct (ResponderModel.rstep sr gin sid ini r it) as [[[[st its] new] evs]|] eqn:Rs end; [|discriminate X].
    edestruct (@n_rstep H) as [G I']; try eassumption; [exact (A it stack Nt)|]. change (rsent evs) with (sent_frames evs) in X. rewrite (posts_good sid _ _ G) in X. injection X as <-.
    exists up, (dn ++ map inl (sent_frames evs)), gone, pre, post, e. fields. split; [exact Eu|]. split; [rewrite encode_app, encode_inl, Ed; reflexivity|]. exact I'.
  - (* XRRecv *) destruct rths as [|x rest]; [discriminate X|]. destruct x as [|it stack]; [discriminate X|]. destruct it as [it|it| | |n]; try discriminate X. destruct it; try discriminate X. destruct stack as [|it stack]; [|discriminate X]. destruct rtodo as [|a todo]; [|discriminate X]. destruct cup as [|bs cup]; [discriminate X|].
    destruct up as [|[f|b] up]; [discriminate Eu| |]; cbn [encode map] in Eu; fold (encode up) in Eu; injection Eu as -> ->.
    + edestruct (@n_mid H) as (Cf & _); try eassumption; try reflexivity. destruct Cf as [[n ->]|Sf].
      * destruct (recv_channel sid data md Sid Snd wr tr rreg n K Few V) as (l & Rv & L). rewrite Rv in X. injection X as <-. exists up, dn, gone, (before e pre (with_n req n)), (after e post (with_n req n)), e. fields. split; [reflexivity|]. split; [exact Ed|]. eapply n_rrecv_request; first [eassumption|reflexivity].
      * destruct (side_good sid Sid f Sf) as [G R]. assert (Rv := recv_own sid wr tr rreg f G R). assert (I' : True /\ cinv p i pths ptr ptodo preg ptasks up dn gone (before e pre f) (after e post f) e r ([RO FUser] :: rest) rtr (if rreg then doing sid f else []) rreg tasks runs) by (split; [exact Logic.I|]; eapply n_rrecv_other; try eassumption; reflexivity). destruct I' as [_ I']. destruct rreg.
        -- rewrite Rv in X. injection X as <-. exists up, dn, gone, (before e pre f), (after e post f), e. fields. rewrite own_doing. auto.
        -- destruct Rv as [Rv|[e0 Rv]]; rewrite Rv in X; injection X as <-; exists up, dn, gone, (before e pre f), (after e post f), e; fields; cbn [filter]; auto.
    + edestruct (@n_rskip H) as [Fo I']; try eassumption; try reflexivity. destruct (received sid wr tr rreg b) as [l|e0|] eqn:Rv; [| |discriminate X].
      * assert (Fl := recv_foreign sid wr tr rreg b l Fo Rv). injection X as <-. exists up, dn, gone, pre, post, e. fields. rewrite Fl. auto.
      * injection X as <-. exists up, dn, gone, pre, post, e. fields. auto.
  - (* XRAct *) destruct rths as [|x rest]; [discriminate X|]. destruct x as [|it stack]; [discriminate X|]. destruct it as [it|it| | |n]; try discriminate X. destruct it; try discriminate X. destruct stack as [|it stack]; [|discriminate X]. destruct rtodo as [|a todo]; [discriminate X|].
    destruct a as [f|q|j|k h j d m0 q n|s f|j]; try discriminate X.
    + injection X as <-. same up dn gone pre post e. eapply n_ract_turn with (a := ASend f); try eassumption; left; reflexivity.
    + injection X as <-. same up dn gone pre post e. rewrite <- (app_nil_r tasks). eapply n_ract_turn with (a := ARegister j); try eassumption; left; reflexivity.
    + destruct k; try discriminate X. injection X as <-. same up dn gone pre post e. eapply n_ract_turn with (a := ARun RC h j d m0 q n); try eassumption; left; reflexivity.
    + destruct f as [d m0| |e0|n].
      * injection X as <-. same up dn gone pre post e. eapply n_ract_call with (f := OnNext d m0); first [eassumption|reflexivity].
      * injection X as <-. same up dn gone pre post e. eapply n_ract_call with (f := OnComplete); first [eassumption|reflexivity].
      * injection X as <-. same up dn gone pre post e. eapply n_ract_call with (f := OnError e0); first [eassumption|reflexivity].
      * injection X as <-. same up dn gone pre post e. eapply n_ract_turn with (a := ACall s (DoRequest n)); try eassumption; right; reflexivity.
    + injection X as <-. same up dn gone pre post e. eapply n_ract_remove; eassumption.
  - (* XTask *) destruct (CallModel.cut j tasks) as [[[a t] b]|] eqn:Cu; [|discriminate X]. destruct (cut_inv _ _ _ _ _ Cu) as [-> _].
    destruct t as [f|h d m0 n|h d m0 n|n].
    + edestruct (@n_tsend H) as [G I']; try eassumption; try reflexivity. rewrite (posts_good sid [f] _ (Forall_cons _ G (Forall_nil _))) in X. injection X as <-. exists up, (dn ++ [inl f]), gone, pre, post, e. fields. split; [exact Eu|]. split; [rewrite encode_app, Ed; reflexivity|]. exact I'.
    + injection X as <-. same up dn gone pre post true. eapply n_tregister; eassumption.
    + destruct (CallModel.cut k rths) as [[[l x] rest]|] eqn:Ci; [|discriminate X]. destruct x as [|u stack]; [discriminate X|]. destruct (is_ruser u) eqn:Bu; [|discriminate X]. destruct (cut_inv _ _ _ _ _ Ci) as [-> _]. injection X as <-. same up dn gone pre post e. eapply n_tstart; eassumption.
    + destruct (CallModel.cut k rths) as [[[l x] rest]|] eqn:Ci; [|discriminate X]. destruct x as [|u stack]; [discriminate X|]. destruct (is_ruser u) eqn:Bu; [|discriminate X]. destruct (cut_inv _ _ _ _ _ Ci) as [-> _]. injection X as <-. same up dn gone pre post e. eapply n_trequest; eassumption.
  - (* XUp *) injection X as <-. exists (up ++ [inr bs]), dn, gone, pre, post, e. fields. split; [rewrite encode_app, Eu; reflexivity|]. split; [exact Ed|]. destruct I. constructor; try assumption; rewrite ?ours_app; cbn [ours flat_map]; rewrite ?app_nil_r; try assumption. apply strangers_inr; assumption.
  - (* XDown *) injection X as <-. exists up, (dn ++ [inr bs]), gone, pre, post, e. fields. split; [exact Eu|]. split; [rewrite encode_app, Ed; reflexivity|]. destruct I. constructor; try assumption; rewrite ?ours_app; cbn [ours flat_map]; rewrite ?app_nil_r; try assumption. destruct y_dn as [U1 U2]. split; [apply strangers_inr; assumption|exact U2].
Qed.
Lemma reach_csys : forall c, creach wp wr tp tr sp sr g gin sid data md c -> csys c.
Proof. intros c R. induction R as [n m|c m c' R IH A X]; [exists [], [], [], [], [], false; split; [reflexivity|]; split; [reflexivity|]; eapply cinv_init; eassumption|]. eapply move_csys; eassumption. Qed.
End Sys.

(** ** What it says *)
Section Facts.
Context {H : Type}.
Context (wr : site) (g gin : fcfg) (sid : N) (data md : bytes) (Sid : sid < 2^31) (K : option H).
Notation refusal := (refusal sid md).
Notation csys := (@csys H wr g gin sid data md K).

Lemma untouched : forall tr, ~ In (@FluxModel.FCancel pay bytes) (fcalls (pvs tr)) -> ~ In (@FClose pay bytes) (fcalls (pvs tr)) -> disturbed tr = false.
Proof. intros tr A B. unfold disturbed. destruct (existsb disturbs (fcalls (pvs tr))) eqn:E; [|reflexivity]. exfalso. apply existsb_exists in E. destruct E as (x & X & D). destruct x; try discriminate D; [exact (A X)|exact (B X)]. Qed.
Lemma caller_pvs : forall c : cconf H, caller c = pvs (pev (x_ptr c)).
Proof. intro c. unfold caller. induction (x_ptr c) as [|e l IH]; [reflexivity|]. cbn [flat_map pev]. fold (pev l). rewrite pvs_app, IH. destruct e as [e|e|n]; try reflexivity. destruct e; reflexivity. Qed.
Lemma reader_pvs : forall c : cconf H, reader c = pvs (rev_of (x_rtr c)).
Proof. intro c. unfold reader. induction (x_rtr c) as [|e l IH]; [reflexivity|]. cbn [flat_map rev_of]. fold (rev_of l). rewrite pvs_app, IH. destruct e as [e|e|e|e]; try reflexivity. destruct e; reflexivity. Qed.
Lemma in_calls : forall c : cconf H, in_emitted c = out_calls (iev (x_ptr c)).
Proof. reflexivity. Qed.
Lemma up_qsent : forall c : cconf H, up_sent c = qsent (x_ptr c). Proof. reflexivity. Qed.
Lemma qidle_idle : forall ths, qidle ths = true -> idle (map (map iit) ths) = true.
Proof.
  intros ths Q. unfold qidle in Q. unfold idle. induction ths as [|x ths IH]; [reflexivity|]. cbn [map forallb] in *. apply andb_true_iff in Q. destruct Q as [Q1 Q2]. rewrite (IH Q2), andb_true_r. clear -Q1. induction x as [|y x IH]; [reflexivity|]. cbn [map forallb] in *. apply andb_true_iff in Q1. destruct Q1 as [Q1 Q2]. rewrite (IH Q2), andb_true_r. destruct y as [y|y]; [|exact Q1]. destruct y as [y|n|]; try reflexivity. destruct y; reflexivity.
Qed.
Lemma existsb_app_false : forall {A} (f : A -> bool) a b, existsb f (a ++ b) = false -> existsb f a = false /\ existsb f b = false.
Proof. intros A f a b E. rewrite existsb_app in E. apply orb_false_iff in E. exact E. Qed.
Lemma filter_pre : forall l, Forall (fun f => is_answer f = false) l -> filter is_answer l = [].
Proof. intros l F. apply filter_nil. intros x X. rewrite Forall_forall in F. exact (F x X). Qed.

(** What a subscriber has seen, and what it was brought. *)
Lemma seen_prefix : forall (g0 : fcfg) st ths tr more l, kinv g0 st ths tr -> nets tr ++ more = effects l -> precedes (delivered (pvs tr)) (expected g0 (map fc (effects l))).
Proof.
  intros g0 st ths tr more l Ki E. destruct (kinv_prefix g0 _ _ _ Ki) as [x X]. rewrite <- E, map_app. destruct (exp_app g0 (map fc (nets tr)) (map fc more)) as [y Y]. exists (x ++ y). rewrite Y. unfold due in X. rewrite X, app_assoc. reflexivity.
Qed.
Lemma seen_all : forall (g0 : fcfg) st us tr l, kinv g0 st ([PI FUser] :: us) tr -> nets tr = effects l -> disturbed tr = false -> delivered (pvs tr) = expected g0 (map fc (effects l)).
Proof. intros g0 st us tr l Ki E D. rewrite (kinv_idle g0 _ _ _ Ki D), <- E. reflexivity. Qed.

(** *** To the caller *)
Lemma down_sent : forall h c up dn gone pre post e, K = Some h -> cinv wr g gin sid data md K (x_p c) (x_i c) (x_pths c) (x_ptr c) (x_ptodo c) (x_preg c) (x_ptasks c) up dn gone pre post e (x_r c) (x_rths c) (x_rtr c) (x_rtodo c) (x_rreg c) (x_tasks c) (x_runs c) ->
  exists rest, answer sid (out_emitted c) = filter is_answer gone ++ rest /\ (ours dn = [] -> idle (x_rths c) = true -> rest = []) /\ (~ cancels_it (reader c) -> existsb is_cancel gone = false).
Proof.
  intros h c up dn gone pre post e Kh []. rewrite Kh in y_link. exists (filter is_answer (ours dn) ++ ResponderSerial.pending sid (x_rths c)). split; [|split].
  - unfold out_emitted. rewrite (s_answer _ _ _ _ (rs_sinv _ _ _ _ _ y_rs)). unfold answers. rewrite <- y_link, filter_app, <- app_assoc. reflexivity.
  - intros -> Id. destruct (free_threads sid (x_rths c) (s_sound _ _ _ _ (rs_sinv _ _ _ _ _ y_rs)) (held_idle _ Id)) as [P _]. rewrite P. reflexivity.
  - intro N. destruct (rs_cancel _ _ _ _ _ y_rs) as [Z|[_ Z]]; [exfalso; apply N; unfold cancels_it; rewrite reader_pvs; exact Z|]. rewrite <- y_link in Z. apply existsb_app_false in Z. tauto.
Qed.
Lemma down_any : forall h c, K = Some h -> csys c -> exists k, precedes k (out_emitted c) /\ precedes (out_seen c) (expected g (k ++ [FComplete])).
Proof.
  intros h c Kh (up & dn & gone & pre & post & e & _ & _ & I). destruct (down_sent h c _ _ _ _ _ _ Kh I) as (rest & A & _). destruct (cut_effects g sid _ _ _ A) as (k & P & Q). exists k. split; [exact P|]. eapply precedes_trans; [|exact Q].
  destruct I. destruct y_pd as (cs & rem & _ & E & _). unfold out_seen. rewrite caller_pvs. eapply seen_prefix; [exact (ps_k _ _ _ _ _ _ _ _ y_ps)|exact E].
Qed.
Lemma down_plain : forall h c, K = Some h -> csys c -> ~ cancels_it (reader c) -> precedes (out_seen c) (expected g (out_emitted c)).
Proof.
  intros h c Kh (up & dn & gone & pre & post & e & _ & _ & I) N. destruct (down_sent h c _ _ _ _ _ _ Kh I) as (rest & A & _ & C). eapply precedes_trans; [|exact (plain_effects g sid _ _ _ (C N) A)].
  destruct I. destruct y_pd as (cs & rem & _ & E & _). unfold out_seen. rewrite caller_pvs. eapply seen_prefix; [exact (ps_k _ _ _ _ _ _ _ _ y_ps)|exact E].
Qed.
Lemma down_rest : forall h c, K = Some h -> csys c -> crest c -> ~ cancels_it (reader c) -> ~ cancels_it (caller c) -> ~ closes_it (caller c) -> out_seen c = expected g (out_emitted c).
Proof.
  intros h c Kh (up & dn & gone & pre & post & e & Eu & Ed & I) (R1 & R2 & R3 & R4 & R5 & R6 & [us R7] & [vs R8] & R9 & R10) N N1 N2. rewrite Ed in R2. apply encode_nil in R2. subst dn. destruct (down_sent h c _ _ _ _ _ _ Kh I) as (rest & A & B & C). rewrite (B eq_refl R10), app_nil_r in A.
  rewrite <- (plain_effects_all g sid _ _ (C N) A). destruct I. destruct y_pd as (cs & rem & T & E & _). assert (Ki := ps_k _ _ _ _ _ _ _ _ y_ps). rewrite R7 in E, Ki. rewrite R3 in T. assert (cs = []) as -> by (destruct cs; [reflexivity|discriminate T]).
  cbn [map pit head_nets flat_map app] in E, Ki. rewrite app_nil_r in E. unfold out_seen. unfold cancels_it, closes_it in N1, N2. rewrite caller_pvs in *. exact (seen_all g _ _ _ _ Ki E (untouched _ N1 N2)).
Qed.

(** *** To the handler *)
Lemma up_frames : forall c up dn gone pre post e, cinv wr g gin sid data md K (x_p c) (x_i c) (x_pths c) (x_ptr c) (x_ptodo c) (x_preg c) (x_ptasks c) up dn gone pre post e (x_r c) (x_rths c) (x_rtr c) (x_rtodo c) (x_rreg c) (x_tasks c) (x_runs c) ->
  exists rest, answer sid (in_emitted c) = filter is_answer post ++ rest /\ (ours up = [] -> qidle (x_pths c) = true -> rest = []) /\ (~ cancels_it (caller c) -> existsb is_cancel post = false).
Proof.
  intros c up dn gone pre post e []. exists (filter is_answer (ours up) ++ ResponderSerial.pending sid (map (map iit) (x_pths c))). assert (S := ps_sinv _ _ _ _ _ _ _ _ y_ps). split; [|split].
  - rewrite in_calls, (s_answer _ _ _ _ S), <- (ps_ans _ _ _ _ _ _ _ _ y_ps), <- y_mid, !filter_app, (filter_pre _ y_pre). cbn [app]. rewrite <- app_assoc. reflexivity.
  - intros -> Id. destruct (free_threads sid _ (s_sound _ _ _ _ S) (held_idle _ (qidle_idle _ Id))) as [P _]. rewrite P. reflexivity.
  - intro N. destruct (ps_cancel _ _ _ _ _ _ _ _ y_ps) as [Z|[_ Z]]; [exfalso; apply N; unfold cancels_it; rewrite caller_pvs; exact Z|]. rewrite <- y_mid in Z. apply existsb_app_false in Z. destruct Z as [_ Z]. apply existsb_app_false in Z. tauto.
Qed.
Lemma up_any : forall c, csys c -> exists k, precedes k (in_emitted c) /\ precedes (in_seen c) (expected gin (k ++ [FComplete])).
Proof.
  intros c (up & dn & gone & pre & post & e & _ & _ & I). destruct (up_frames c _ _ _ _ _ _ I) as (rest & A & _). destruct (cut_effects gin sid _ _ _ A) as (k & P & Q). exists k. split; [exact P|]. eapply precedes_trans; [|exact Q].
  destruct I. destruct y_rd as (acts & cs & rem & _ & _ & _ & _ & E & _). unfold in_seen. rewrite reader_pvs. eapply seen_prefix; [exact (rs_k _ _ _ _ _ y_rs)|exact E].
Qed.
Lemma up_plain : forall c, csys c -> ~ cancels_it (caller c) -> precedes (in_seen c) (expected gin (in_emitted c)).
Proof.
  intros c (up & dn & gone & pre & post & e & _ & _ & I) N. destruct (up_frames c _ _ _ _ _ _ I) as (rest & A & _ & C). eapply precedes_trans; [|exact (plain_effects gin sid _ _ _ (C N) A)].
  destruct I. destruct y_rd as (acts & cs & rem & _ & _ & _ & _ & E & _). unfold in_seen. rewrite reader_pvs. eapply seen_prefix; [exact (rs_k _ _ _ _ _ y_rs)|exact E].
Qed.
Lemma up_rest : forall c, csys c -> crest c -> ~ cancels_it (caller c) -> ~ cancels_it (reader c) -> ~ closes_it (reader c) -> in_seen c = expected gin (in_emitted c).
Proof.
  intros c (up & dn & gone & pre & post & e & Eu & Ed & I) (R1 & R2 & R3 & R4 & R5 & R6 & [us R7] & [vs R8] & R9 & R10) N N1 N2. rewrite Eu in R1. apply encode_nil in R1. subst up. destruct (up_frames c _ _ _ _ _ _ I) as (rest & A & B & C). rewrite (B eq_refl R9), app_nil_r in A.
  rewrite <- (plain_effects_all gin sid _ _ (C N) A). destruct I. destruct y_rd as (acts & cs & rem & T & _ & _ & _ & E & _). assert (Ki := rs_k _ _ _ _ _ y_rs). rewrite R8 in E, Ki. rewrite R4 in T. assert (acts = [] /\ cs = []) as [-> ->] by (destruct acts; [split; [reflexivity|]; destruct cs; [reflexivity|discriminate T]|discriminate T]).
  cbn [map rit is_ruser head_nets flat_map app] in E, Ki. rewrite app_nil_r in E. unfold in_seen. unfold cancels_it, closes_it in N1, N2. rewrite reader_pvs in *. exact (seen_all gin _ _ _ _ Ki E (untouched _ N1 N2)).
Qed.

(** *** The handler *)
Lemma copened_tok : forall c : cconf H, copened c -> 1 <= nsum tok (qsent (x_ptr c)).
Proof. intros c [r I]. rewrite up_qsent in I. induction (qsent (x_ptr c)) as [|f l IH]; [destruct I|]. rewrite nsum_cons. destruct I as [->|I]; [cbn [tok]; lia|]. specialize (IH I). lia. Qed.
Lemma chan_runs : forall h c, K = Some h -> csys c -> Forall (fun x => exists r, In (FramesModel.FRequest r) (up_sent c) /\ x = (h, data, handler_metadata wr RC md, rf_initial_n r)) (x_runs c) /\
  (length (x_runs c) <= 1)%nat /\ (crest c -> copened c -> length (x_runs c) = 1%nat).
Proof.
  intros h c Kh (up & dn & gone & pre & post & e & Eu & Ed & []). rewrite Kh in y_tok. assert (T := ps_tok _ _ _ _ _ _ _ _ y_ps). split; [|split].
  - eapply Forall_impl; [|exact y_runs]. intros [[[h' d] m] n] (A & -> & -> & (r & B & <-)). exists r. split; [exact B|]. congruence.
  - destruct (p_first (x_p c)); lia.
  - intros (R1 & _ & _ & R4 & _ & R6 & _) O. apply copened_tok in O. rewrite Eu in R1. apply encode_nil in R1. subst up. rewrite R4, R6 in y_tok. cbn [ours flat_map] in y_tok. rewrite !nsum_nil in y_tok. destruct (p_first (x_p c)); lia.
Qed.

(** *** Refusal *)
Notation message := (if len md <? 8 then invalid_metadata else not_found).
Lemma chan_refused : forall c, K = None -> csys c -> x_runs c = [] /\ in_seen c = [] /\ in_arrived c = 0 /\ precedes (out_seen c) (expected g [FluxModel.FError message]) /\
  (crest c -> copened c -> ~ cancels_it (caller c) -> ~ closes_it (caller c) -> out_seen c = expected g [FluxModel.FError message]).
Proof.
  intros c Kn (up & dn & gone & pre & post & e & Eu & Ed & I). assert (I0 := I). destruct I0. rewrite Kn in y_link, y_tok.
  assert (Rn : x_runs c = []). { destruct (x_runs c) as [|[[[h d] m] n] l]; [reflexivity|]. inversion y_runs as [|? ? Z _]. destruct Z as [Z _]. congruence. }
  destruct (y_rq Rn) as (_ & Ri & _ & _ & Sr). destruct (y_cause Ri) as (_ & _ & Ea). apply Forall_app in y_link. destruct y_link as [G D].
  destruct y_pd as (cs & rem & T & E & _). assert (Ki := ps_k _ _ _ _ _ _ _ _ y_ps).
  split; [exact Rn|]. split; [|split; [|split]].
  - assert (Z : e = false). { destruct e; [|reflexivity]. exfalso. rewrite Rn in y_reg. cbn [length] in y_reg. rewrite N.add_0_r in y_reg. assert (Q : nsum (@tst H) (x_tasks c) = 0); [|lia]. clear -y_tasks Kn. induction (x_tasks c) as [|t l IH]; [reflexivity|]. inversion y_tasks as [|? ? A B]; subst. rewrite nsum_cons, (IH B). destruct t; try reflexivity. destruct A as [A _]. congruence. }
    destruct y_rd as (acts & cs' & rem' & _ & _ & _ & _ & E' & _). assert (Y := seen_prefix gin _ _ _ _ post (rs_k _ _ _ _ _ y_rs) E'). rewrite (y_post Z) in Y. destruct Y as [d Y]. symmetry in Y. apply app_eq_nil in Y. unfold in_seen. rewrite reader_pvs. tauto.
  - unfold in_arrived. change (flat_map (fun e : qevent => match e with EAsk n => [n] | _ => [] end) (x_ptr c)) with (easks (x_ptr c)). rewrite Ea. reflexivity.
  - assert (Y := seen_prefix g _ _ _ _ gone Ki E). rewrite (StreamProofs.refused_effects g sid md gone G) in Y. unfold out_seen. rewrite caller_pvs. destruct gone as [|f l]; [|exact Y]. destruct Y as [d Y]. symmetry in Y. apply app_eq_nil in Y. destruct Y as [-> _]. eexists. reflexivity.
  - intros (R1 & R2 & R3 & R4 & R5 & R6 & [us R7] & _) O N1 N2. apply copened_tok in O. rewrite Eu in R1. rewrite Ed in R2. apply encode_nil in R1, R2. subst up dn. rewrite R4, R6 in y_tok. cbn [ours flat_map] in y_tok. rewrite !nsum_nil, app_nil_r in y_tok.
    rewrite R7 in E, Ki. rewrite R3 in T. assert (cs = []) as -> by (destruct cs; [reflexivity|discriminate T]). cbn [map pit head_nets flat_map app] in E, Ki. rewrite app_nil_r in E. unfold out_seen. unfold cancels_it, closes_it in N1, N2. rewrite caller_pvs in *.
    rewrite (seen_all g _ _ _ _ Ki E (untouched _ N1 N2)), (StreamProofs.refused_effects g sid md gone G). destruct gone as [|f l]; [|reflexivity]. exfalso. cbn [length] in y_tok. lia.
Qed.

(** *** Credit *)
Lemma chan_credit : forall c, csys c -> out_arrived c <= out_granted c /\ in_arrived c <= in_granted c.
Proof.
  intros c (up & dn & gone & pre & post & e & Eu & Ed & []). unfold out_arrived, out_granted, in_arrived, in_granted, sum. rewrite !fold_nsum.
  change (flat_map (fun e => match e with RNet (RNRequest n) => [n] | _ => [] end) (x_rtr c)) with (net_requests (x_rtr c)). change (flat_map (fun e : qevent => match e with EAsk n => [n] | _ => [] end) (x_ptr c)) with (easks (x_ptr c)).
  rewrite <- (map_id (net_requests (x_rtr c))), <- (map_id (easks (x_ptr c))), !fold_nsum. change (fun x : N => x) with idn. change (@snd (H * bytes * bytes) N) with (@run_n H). rewrite up_qsent. split; lia.
Qed.

(** *** Calls of the dispatcher *)
Lemma effects_nil : forall l, filter is_answer l = [] -> existsb is_cancel l = false -> effects l = [].
Proof. intros l F C. destruct (effects_answers l (no_cancels l C)) as [E _]. rewrite F in E. symmetry. exact E. Qed.
Lemma input_ready : forall c i n stack, csys c -> ~ cancels_it (caller c) -> nth_error (x_rths c) i = Some (RNetDo n :: stack) -> (forall k, n <> RNRequest k) -> f_sub (r_in (x_r c)) = true.
Proof.
  intros c i n stack (up & dn & gone & pre & post & e & Eu & Ed & I) N Nt Nr. assert (I0 := I). destruct I0. destruct (f_sub (r_in (x_r c))) eqn:Fs; [reflexivity|]. exfalso. destruct (y_cause eq_refl) as (_ & _ & Ea).
  destruct (up_frames c _ _ _ _ _ _ I) as (rest & A & _ & C). specialize (C N).
  assert (Z : answer sid (in_emitted c) = []). { destruct (ps_ask _ _ _ _ _ _ _ _ y_ps) as [[k Q]|Q]. { exfalso. assert (In k (easks (x_ptr c))) by (apply in_flat_map; exists (EAsk k); split; [exact Q|left; reflexivity]). rewrite Ea in H0. destruct H0. }
    rewrite in_calls. unfold answer. clear -Q. induction Q as [|x l Q F IH]; [reflexivity|]. cbn [upto]. destruct (closes x); cbn [flat_map]; rewrite Q; [reflexivity|exact IH]. }
  rewrite Z in A. symmetry in A. apply app_eq_nil in A. destruct A as [A _]. assert (Ef := effects_nil post A C). destruct y_rd as (acts & cs & rem & _ & _ & _ & _ & E & _). rewrite Ef in E. apply app_eq_nil in E. destruct E as [_ E]. apply app_eq_nil in E. destruct E as [E _].
  destruct (nth_error_split _ _ Nt) as (l1 & l2 & El & _). assert (Ki := rs_k _ _ _ _ _ y_rs). rewrite El, map_at in Ki, E. cbn [map] in Ki, E. destruct (kinv_first gin _ _ _ _ _ _ Ki) as [Q _]; [destruct n; try reflexivity; exfalso; eapply Nr; reflexivity|].
  rewrite Q in E. destruct n; try discriminate E. eapply Nr. reflexivity.
Qed.
End Facts.

(** ** Running moves *)
Section Run.
Context {H : Type}.
Context (wp wr : site) (tp tr : ikind -> list (option H)) (sp sr : bool) (g gin : fcfg) (sid : N) (data md : bytes).
Definition toldb (c : cconf H) : bool := existsb (fun e => match e with EAsk _ => true | _ => false end) (x_ptr c).
Definition callowedb (c : cconf H) (m : cmove) : bool :=
  match m with
  | XPCall _ (QI (RO (FDo f))) => sendableb f
  | XPStep i => match nth_error (x_pths c) i with Some (QI it :: _) => implb (begins it) (qidle (x_pths c) && toldb c) | _ => true end
  | XRCall _ (RO (FDo f)) => sendableb f
  | XRStep i => match nth_error (x_rths c) i with Some (it :: _) => implb (begins it) (idle (x_rths c)) | _ => true end
  | XUp bs | XDown bs => foreignb sid bs
  | _ => true
  end.
Lemma sendableb_sound : forall f, sendableb f = true -> sendable_call f.
Proof. intros f E. destruct f; cbn [sendableb sendable_call] in *; try exact Logic.I; [destruct v as [d m]; apply andb_true_iff in E; destruct E as [E1 E2]; apply N.ltb_lt in E1, E2; split; assumption|apply N.ltb_lt in E; exact E]. Qed.
Lemma callowedb_sound : forall c m, callowedb c m = true -> callowed sid c m.
Proof.
  intros c m E. destruct m as [k f|k|k| | |j k|k f|k|k| | |j k|bs|bs]; cbn [callowedb callowed] in *; try exact Logic.I; try (apply foreignb_sound; exact E).
  - destruct f as [f|f]; try exact Logic.I. destruct f; try exact Logic.I. destruct it; try exact Logic.I. apply sendableb_sound. exact E.
  - intros it stack Nt B. rewrite Nt, B in E. cbn [implb] in E. apply andb_true_iff in E. destruct E as [E1 E2]. split; [exact E1|]. apply existsb_exists in E2. destruct E2 as (x & X & Y). destruct x; try discriminate Y. eexists. exact X.
  - destruct f; try exact Logic.I. destruct it; try exact Logic.I. apply sendableb_sound. exact E.
  - intros it stack Nt B. rewrite Nt, B in E. exact E.
Qed.
Fixpoint run_cmoves (c : cconf H) (ms : list cmove) : option (cconf H) :=
  match ms with
  | [] => Some c
  | m :: ms' => if callowedb c m then match do_cmove wp wr tp tr sp sr g gin sid data md c m with Some c' => run_cmoves c' ms' | None => None end else None
  end.
Lemma run_creach : forall ms c c', creach wp wr tp tr sp sr g gin sid data md c -> run_cmoves c ms = Some c' -> creach wp wr tp tr sp sr g gin sid data md c'.
Proof.
  induction ms as [|m ms IH]; intros c c' R X; [injection X as <-; exact R|]. cbn [run_cmoves] in X. destruct (callowedb c m) eqn:A; [|discriminate X]. destruct (do_cmove wp wr tp tr sp sr g gin sid data md c m) as [c1|] eqn:D; [|discriminate X].
  eapply IH; [|exact X]. eapply x_move; [exact R|apply callowedb_sound; exact A|exact D].
Qed.
(** Without regard to what is allowed. *)
Fixpoint raw_cmoves (c : cconf H) (ms : list cmove) : option (cconf H) :=
  match ms with
  | [] => Some c
  | m :: ms' => match do_cmove wp wr tp tr sp sr g gin sid data md c m with Some c' => raw_cmoves c' ms' | None => None end
  end.
End Run.
