(** The two ends of a stream, each with its own dispatcher: step lemmas. *)
From Coq Require Import List NArith ZArith Bool Lia.
From Verif Require Import Base FramesModel FramesSpec InvokeModel MonoModel FluxModel FluxSpec ProxyModel ProxySpec DispatchModel ResponderModel ResponderSpec ResponderProofs ResponderSerial.
From Verif Require Import StreamModel StreamSpec.
Import ListNotations.

(** ** The requester *)
Section Requester.
Context (sp : bool) (g : fcfg) (sid : N) (data md : bytes).
Notation req := (stream_request sid data md).
Notation pstep := (pstep sp g req false).

Definition pvs (tr : list pevent) : list (fevent pay bytes) := flat_map (fun e => match e with PV v => [v] | _ => [] end) tr.
Definition nets (tr : list pevent) : list net := flat_map (fun e => match e with PNet c => [c] | _ => [] end) tr.
Definition fc (n : net) : fcall pay bytes := match n with NNext v => FNext v | NComplete => FComplete | NError e => FluxModel.FError e end.
Definition disturbs (c : fcall pay bytes) : bool := match c with FluxModel.FCancel | FClose => true | _ => false end.
Definition disturbed (tr : list pevent) : bool := existsb disturbs (fcalls (pvs tr)).

Lemma pvs_app : forall a b, pvs (a ++ b) = pvs a ++ pvs b.
Proof. intros. apply flat_map_app. Qed.
Lemma nets_app : forall a b, nets (a ++ b) = nets a ++ nets b.
Proof. intros. apply flat_map_app. Qed.
Lemma psent_app : forall a b, psent (a ++ b) = psent a ++ psent b.
Proof. intros. apply flat_map_app. Qed.
Lemma delivered_app : forall a b : list (fevent pay bytes), delivered (a ++ b) = delivered a ++ delivered b.
Proof. intros. apply filter_app. Qed.
Lemma disturbed_app : forall a b, disturbed (a ++ b) = disturbed a || disturbed b.
Proof. intros. unfold disturbed. rewrite pvs_app. unfold fcalls. rewrite flat_map_app, existsb_app. reflexivity. Qed.
Lemma pvs_PV : forall evs, pvs (map PV evs) = evs.
Proof. induction evs as [|e l IH]; [reflexivity|]. cbn. f_equal. exact IH. Qed.
Lemma nets_PV : forall evs, nets (map PV evs) = [].
Proof. induction evs as [|e l IH]; [reflexivity|]. exact IH. Qed.
Lemma psent_PV : forall evs, psent (map PV evs) = [].
Proof. induction evs as [|e l IH]; [reflexivity|]. exact IH. Qed.
Lemma registers_PV : forall evs, registers_now (map PV evs) = false.
Proof. induction evs as [|e l IH]; [reflexivity|]. exact IH. Qed.

(** Items that deliver nothing. *)
Definition is_sink (c : fcall pay bytes) : bool := match c with FNext _ | FComplete | FluxModel.FError _ => true | _ => false end.
Definition clean (it : pitem) : bool :=
  match it with
  | PNetDo _ => false
  | PI (FDo c) | PI (FCommit c) => negb (is_sink c)
  | PI (FEmit _ (VNext _ | VComplete | VError _ | VCall _)) => false
  | _ => true
  end.
(** The others. *)
Definition hot (it : pitem) : bool :=
  match it with
  | PNetDo _ => true
  | PI (FDo c) | PI (FCommit c) => is_sink c
  | PI (FEmit on (VNext _)) => Bool.eqb on (k_next g)
  | PI (FEmit on VComplete) => Bool.eqb on (k_complete g)
  | PI (FEmit on (VError _)) => Bool.eqb on (k_error g)
  | _ => false
  end.

Lemma clean_PI_cbs : forall l s, forallb clean (map PI (map (fun k => FEmit true (VNotify k s)) l)) = true.
Proof. induction l as [|x l IH]; intro s; [reflexivity|]. exact (IH s). Qed.

Lemma p_eta : forall st, mkP (p_fl st) (p_first st) (p_complete st) = st.
Proof. destruct st; reflexivity. Qed.

(** The frames of the requester. *)
Definition up_frame (f : frame) : Prop := (exists n, f = with_n req n) \/ (exists n, f = FRequestN sid (u32z n)) \/ f = FramesModel.FCancel sid.

Lemma clean_step : forall st it st' its new evs, clean it = true -> pstep st it = Some (st', its, new, evs) ->
  forallb clean its = true /\ forallb (forallb clean) new = true /\ delivered (pvs evs) = [] /\ nets evs = [] /\
  (f_closed (p_fl st') = f_closed (p_fl st) /\ disturbed evs = false \/ f_closed (p_fl st') = true /\ disturbed evs = true) /\
  Forall up_frame (psent evs) /\ f_sub (p_fl st') = f_sub (p_fl st) || registers_now evs.
Proof.
  intros st it st' its new evs C X. destruct it as [it|n|]; [|discriminate C|].
  - destruct it as [|n|c|c|on e| | |n|n|n|sg|sg]; try discriminate X.
    + destruct c; try discriminate C; cbn [ProxyModel.pstep fstep] in X;
      repeat match type of X with context [if ?b then _ else _] => let B := fresh "B" in destruct b eqn:B end; try discriminate X;
      injection X as <- <- <- <-; repeat split; try apply Forall_nil; cbn; rewrite ?orb_false_r, ?orb_true_r; auto; rewrite ?pvs_PV; auto.
    + destruct c; try discriminate C; cbn [ProxyModel.pstep fstep] in X; try discriminate X. injection X as <- <- <- <-. repeat split; try apply Forall_nil; cbn; rewrite ?orb_false_r; auto. destruct (0 <? f_n (p_fl st))%Z; reflexivity.
    + destruct on; [destruct e; try discriminate C|]; cbn [ProxyModel.pstep fstep] in X.
      * injection X as <- <- <- <-. repeat split; try apply Forall_nil; cbn; rewrite ?orb_false_r; auto.
      * injection X as <- <- <- <-. repeat split; try apply Forall_nil; cbn; rewrite ?orb_false_r; auto.
      * destruct (p_complete st); [|destruct (p_first st)]; injection X as <- <- <- <-; repeat split; cbn; rewrite ?orb_false_r; auto.
        -- constructor; [left; exists n; reflexivity|constructor].
        -- constructor; [right; left; exists n; reflexivity|constructor].
      * injection X as <- <- <- <-. repeat split; cbn; rewrite ?orb_false_r; auto. constructor; [right; right; reflexivity|constructor].
      * injection X as <- <- <- <-. repeat split; try apply Forall_nil; cbn; rewrite ?orb_false_r; auto.
      * injection X as <- <- <- <-. repeat split; try apply Forall_nil; cbn; rewrite ?orb_false_r; auto.
    + cbn [ProxyModel.pstep fstep] in X. injection X as <- <- <- <-. repeat split; try apply Forall_nil; cbn; rewrite ?orb_false_r; auto. destruct (f_n (p_fl st) =? 0)%Z; reflexivity.
    + cbn [ProxyModel.pstep fstep] in X. injection X as <- <- <- <-. repeat split; try apply Forall_nil; cbn; rewrite ?orb_false_r; auto. destruct (k_norequest g); [reflexivity|]. destruct (k_request g); reflexivity.
    + cbn [ProxyModel.pstep fstep] in X. injection X as <- <- <- <-. repeat split; try apply Forall_nil; cbn; rewrite ?orb_false_r; auto. destruct (f_req (p_fl st)); reflexivity.
    + cbn [ProxyModel.pstep fstep] in X. destruct sp; injection X as <- <- <- <-; repeat split; try apply Forall_nil; cbn; rewrite ?orb_false_r; auto.
    + cbn [ProxyModel.pstep fstep] in X. destruct (f_req (p_fl st)); [|discriminate X]. injection X as <- <- <- <-; repeat split; try apply Forall_nil; cbn; rewrite ?orb_false_r; auto.
    + cbn [ProxyModel.pstep fstep] in X. injection X as <- <- <- <-; repeat split; try apply Forall_nil; cbn; rewrite ?orb_false_r; auto.
    + cbn [ProxyModel.pstep fstep] in X. injection X as <- <- <- <-; repeat split; try apply Forall_nil; cbn; rewrite ?orb_false_r; auto. apply clean_PI_cbs.
  - cbn [ProxyModel.pstep] in X. injection X as <- <- <- <-. repeat split; try apply Forall_nil; cbn; rewrite ?orb_false_r; auto.
Qed.

(** What is on its way through the first item. *)
Definition pend_c (it : pitem) : list (fevent pay bytes) :=
  match it with PI (FCommit c) => delivers g c | PI (FEmit true e) => if is_delivery e then [e] else [] | _ => [] end.
Definition pend_u (it : pitem) : list (fevent pay bytes) := match it with PI (FDo c) => delivers g c | _ => [] end.
Definition ending (it : pitem) : bool := match it with PI (FDo c) | PI (FCommit c) => closes c && is_sink c | _ => false end.
Definition top (f : pitem -> list (fevent pay bytes)) (stack : list pitem) : list (fevent pay bytes) := match stack with it :: _ => f it | [] => [] end.
Definition top_ending (stack : list pitem) : bool := match stack with it :: _ => ending it | [] => false end.

Lemma clean_top : forall stack, forallb clean stack = true -> top pend_c stack = [] /\ top pend_u stack = [] /\ top_ending stack = false.
Proof.
  intros [|it stack] C; [repeat split|]. cbn [forallb] in C. apply andb_true_iff in C. destruct C as [C _]. cbn [top top_ending]. destruct it as [it|n|]; [|discriminate C|repeat split].
  destruct it as [|n|c|c|on e| | |n|n|n|sg|sg]; try (repeat split); try (destruct c; discriminate C || reflexivity).
  destruct on; [|reflexivity]. destruct e; discriminate C || reflexivity.
Qed.

Definition due (tr : list pevent) : list (fevent pay bytes) := expected g (map fc (nets tr)).
Definition over (tr : list pevent) : bool := existsb closes (map fc (nets tr)).

(** One thread - the dispatcher's - makes the sink calls, one after the other. *)
Record kinv (st : pst) (ths : list (list pitem)) (tr : list pevent) : Prop := {
  k_shape : exists d us, ths = d :: us /\ forallb (forallb clean) us = true /\
    (forallb clean d = true \/ exists it t, d = it :: t /\ hot it = true /\ forallb clean t = true) /\
    (f_closed (p_fl st) = false -> due tr = delivered (pvs tr) ++ top pend_c d ++ top pend_u d) /\
    (exists x, due tr = delivered (pvs tr) ++ top pend_c d ++ x) /\
    (f_closed (p_fl st) = false -> over tr = true -> top_ending d = true) /\
    (disturbed tr = false -> f_closed (p_fl st) = true -> due tr = delivered (pvs tr) ++ top pend_c d /\ over tr = true) /\
    (top_ending d = true -> over tr = true) }.

Lemma upto_app : forall {T E} (l l' : list (fcall T E)), upto (l ++ l') = if existsb closes l then upto l else l ++ upto l'.
Proof.
  intros T E. induction l as [|x l IH]; intro l'; [reflexivity|]. cbn [app upto existsb]. destruct (closes x); [reflexivity|]. cbn [orb]. rewrite IH. destruct (existsb closes l); reflexivity.
Qed.
Lemma upto_all : forall {T E} (l : list (fcall T E)), existsb closes l = false -> upto l = l.
Proof. intros T E l H. assert (A := upto_app l []). rewrite app_nil_r, H in A. cbn [upto] in A. rewrite app_nil_r in A. exact A. Qed.
Lemma expected_app : forall (l l' : list (fcall pay bytes)), expected g (l ++ l') = expected g l ++ (if existsb closes l then [] else expected g l').
Proof.
  intros l l'. unfold expected. rewrite upto_app. destruct (existsb closes l) eqn:C; [rewrite app_nil_r; reflexivity|]. rewrite flat_map_app, (upto_all l C). reflexivity.
Qed.

Lemma kinv_init : forall n, kinv proxy_create (repeat [PI FUser] (S n)) [].
Proof.
  intro n. constructor. exists [PI FUser], (repeat [PI FUser] n). split; [reflexivity|]. split; [induction n; [reflexivity|assumption]|]. split; [left; reflexivity|].
  split; [reflexivity|]. split; [exists []; reflexivity|]. split; [discriminate|]. split; discriminate.
Qed.

Lemma clean_split : forall l (x : list pitem) rest, forallb (forallb clean) (l ++ x :: rest) = true -> forallb (forallb clean) l = true /\ forallb clean x = true /\ forallb (forallb clean) rest = true.
Proof. intros l x rest C. rewrite forallb_app in C. cbn [forallb] in C. rewrite !andb_true_iff in C. tauto. Qed.

Lemma hot_not_clean : forall it, hot it = true -> clean it = false.
Proof.
  intros [it|n|] C; [|reflexivity|discriminate C]. destruct it as [|n|c|c|on e| | |n|n|n|sg|sg]; try discriminate C; try (destruct c; discriminate C || reflexivity). destruct e; discriminate C || reflexivity.
Qed.

(** A step of an item that delivers nothing, on any thread. *)
Lemma kinv_calm : forall st ths tr st' ths' evs, kinv st ths tr ->
  delivered (pvs evs) = [] -> nets evs = [] ->
  (f_closed (p_fl st') = f_closed (p_fl st) /\ disturbed evs = false \/ f_closed (p_fl st') = true /\ disturbed evs = true) ->
  (forall d us, ths = d :: us -> forallb (forallb clean) us = true -> (forallb clean d = true \/ exists it t, d = it :: t /\ hot it = true /\ forallb clean t = true) ->
     exists d' us', ths' = d' :: us' /\ forallb (forallb clean) us' = true /\ (d' = d \/ forallb clean d = true /\ forallb clean d' = true)) ->
  kinv st' ths' (tr ++ evs).
Proof.
  intros st ths tr st' ths' evs [(d & us & E & U & S & K1 & K2 & K3 & K4 & K5)] D N C T. destruct (T d us E U S) as (d' & us' & E' & U' & W).
  assert (Td : top pend_c d' = top pend_c d /\ top pend_u d' = top pend_u d /\ top_ending d' = top_ending d /\ (forallb clean d' = true \/ exists it t, d' = it :: t /\ hot it = true /\ forallb clean t = true)).
  { destruct W as [->|[W1 W2]]; [auto|]. destruct (clean_top d W1) as (-> & -> & ->). destruct (clean_top d' W2) as (-> & -> & ->). auto. }
  destruct Td as (T1 & T2 & T3 & T4). constructor. exists d', us'. split; [exact E'|]. split; [exact U'|]. split; [exact T4|]. unfold due, over. rewrite nets_app, N, app_nil_r, pvs_app, delivered_app, D, app_nil_r, T1, T2, T3. fold (due tr) (over tr).
  split; [|split; [exact K2|split; [|split; [|exact K5]]]].
  - intro Z. apply K1. destruct C as [[C _]|[C _]]; congruence.
  - intro Z. apply K3. destruct C as [[C _]|[C _]]; congruence.
  - rewrite disturbed_app. intros Z Y. apply orb_false_iff in Z. destruct Z as [Z1 Z2]. destruct C as [[C _]|[_ C]]; [|congruence]. apply K4; [exact Z1|congruence].
Qed.

Lemma kinv_step : forall st l it stack rest tr st' its new evs, kinv st (l ++ (it :: stack) :: rest) tr -> pstep st it = Some (st', its, new, evs) ->
  ((exists n, it = PNetDo n) -> f_sub (p_fl st) = true) -> kinv st' (l ++ (its ++ stack) :: rest ++ new) (tr ++ evs).
Proof.
  intros st l it stack rest tr st' its new evs K X Sub. destruct (clean it) eqn:C.
  - destruct (clean_step _ _ _ _ _ _ C X) as (C1 & C2 & D & N & Cl & _). apply (kinv_calm _ _ _ _ _ _ K D N Cl). intros d us E U S. destruct l as [|x l]; cbn [app] in E |- *.
    + injection E as <- <-. exists (its ++ stack), (rest ++ new). split; [reflexivity|]. split; [rewrite forallb_app, U, C2; reflexivity|]. right.
      assert (S' : forallb clean stack = true). { destruct S as [S|(it' & t & S & Sh & Sc)]; [cbn [forallb] in S; apply andb_true_iff in S; tauto|]. injection S as <- <-. exact Sc. }
      split; [cbn [forallb]; rewrite C; exact S'|]. rewrite forallb_app, C1, S'. reflexivity.
    + injection E as <- <-. exists x, (l ++ (its ++ stack) :: rest ++ new). split; [reflexivity|]. split; [|left; reflexivity]. destruct (clean_split _ _ _ U) as (U1 & U2 & U3). cbn [forallb] in U2. apply andb_true_iff in U2. destruct U2 as [_ U2].
      rewrite forallb_app. cbn [forallb]. rewrite !forallb_app, U1, C1, U2, U3, C2. reflexivity.
  - destruct K as [(d & us & E & U & S & K1 & K2 & K3 & K4 & K5)]. destruct l as [|x l].
    2:{ cbn [app] in E. injection E as <- <-. destruct (clean_split _ _ _ U) as (_ & U2 & _). cbn [forallb] in U2. rewrite C in U2. discriminate U2. }
    cbn [app] in E |- *. injection E as <- <-. destruct S as [S|(it' & t & S & Sh & Sc)]; [cbn [forallb] in S; rewrite C in S; discriminate S|]. injection S as <- <-.
    constructor. exists (its ++ stack), (rest ++ new). split; [reflexivity|]. cbn [top top_ending] in K1, K2, K3, K4, K5.
    assert (Tc := clean_top stack Sc). destruct Tc as (Tc & Tu & Te).
    destruct it as [it|n|]; [| |discriminate C].
    + destruct it as [|n|c|c|on e| | |n|n|n|sg|sg]; try discriminate C.
      * (* the test of closed *)
        assert (Sk : is_sink c = true) by exact Sh. assert (Z : f_sub (p_fl st) = true /\ (f_closed (p_fl st) = true /\ its = [] \/ f_closed (p_fl st) = false /\ its = [PI (FCommit c)]) /\ new = [] /\ evs = [PV (VCall c)] /\ st' = st).
        { destruct c; try discriminate Sk; cbn [ProxyModel.pstep fstep] in X; destruct (f_sub (p_fl st)) eqn:Fs; try discriminate X; destruct (f_closed (p_fl st)) eqn:Fc; injection X as <- <- <- <-; rewrite p_eta; auto 10. }
        destruct Z as (_ & Z & -> & -> & ->). rewrite app_nil_r. split; [exact U|]. assert (Q : disturbed [PV (VCall c)] = false) by (destruct c; discriminate Sk || reflexivity).
        unfold due, over. rewrite nets_app, pvs_app, delivered_app, disturbed_app, Q, orb_false_r. cbn [nets pvs flat_map app delivered filter is_delivery]. rewrite !app_nil_r. fold (due tr) (over tr).
        cbn [pend_c pend_u ending app] in K1, K2, K3, K4, K5. destruct Z as [[Cl ->]|[Cl ->]]; cbn [app].
        -- rewrite Tc, Tu, Te. split; [left; exact Sc|]. split; [intro; congruence|]. split; [exact K2|]. split; [intro; congruence|]. split; [exact K4|discriminate].
        -- split; [right; eexists _, _; split; [reflexivity|]; split; [exact Sk|exact Sc]|]. cbn [top pend_c pend_u top_ending ending]. rewrite app_nil_r. split; [exact K1|]. split; [exists []; rewrite app_nil_r; exact (K1 Cl)|]. split; [exact K3|]. split; [intros; congruence|exact K5].
      * (* what follows the test *)
        assert (Sk : is_sink c = true) by exact Sh.
        assert (Z : exists e x, its = [PI (FEmit (match c with FNext _ => k_next g | FComplete => k_complete g | _ => k_error g end) e); x] /\ clean x = true /\ new = [] /\ evs = [] /\
                  f_closed (p_fl st') = f_closed (p_fl st) || closes c /\ (match c with FNext v => e = VNext v | FComplete => e = VComplete | FluxModel.FError m => e = VError m | _ => False end)).
        { destruct c; try discriminate Sk; cbn [ProxyModel.pstep fstep] in X; injection X as <- <- <- <-; eexists _, _; (split; [reflexivity|]); cbn; rewrite ?orb_false_r, ?orb_true_r; auto 10. }
        destruct Z as (e & x & -> & Cx & -> & -> & Cl & Ee). rewrite !app_nil_r. split; [exact U|]. cbn [app].
        assert (Pe : top pend_c (PI (FEmit (match c with FNext _ => k_next g | FComplete => k_complete g | _ => k_error g end) e) :: x :: stack) = delivers g c).
        { destruct c; try discriminate Sk; subst e; cbn [top pend_c delivers is_delivery]; [destruct (k_next g)|destruct (k_complete g)|destruct (k_error g)]; reflexivity. }
        rewrite Pe. cbn [top pend_u top_ending ending app]. cbn [pend_c pend_u ending] in K1, K2, K3, K4, K5. rewrite app_nil_r in K1.
        split; [right; eexists _, _; split; [reflexivity|]; split; [|cbn [forallb]; rewrite Cx; exact Sc]; destruct c; try discriminate Sk; subst e; apply Bool.eqb_reflx|].
        rewrite Cl. split; [intro Z; apply orb_false_iff in Z; apply K1; tauto|]. split; [exact K2|]. split.
        -- intros Z1 Z2. apply orb_false_iff in Z1. destruct Z1 as [Z1 Z3]. specialize (K3 Z1 Z2). rewrite Z3 in K3. discriminate K3.
        -- split; [|discriminate]. intros Z1 Z2. destruct (f_closed (p_fl st)) eqn:Fc; [exact (K4 Z1 eq_refl)|]. cbn [orb] in Z2. split; [exact (K1 eq_refl)|]. apply K5. rewrite Z2, Sk. reflexivity.
      * destruct on.
        -- assert (Z : its = [PI FUser] /\ new = [] /\ evs = [PV e] /\ st' = st /\ is_delivery e = true).
           { destruct e; try discriminate C; cbn [ProxyModel.pstep fstep] in X; try discriminate Sh; injection X as <- <- <- <-; rewrite p_eta; auto 10. }
           destruct Z as (-> & -> & -> & -> & De). rewrite app_nil_r. split; [exact U|]. split; [left; cbn [forallb app]; rewrite Sc; reflexivity|]. cbn [pend_c pend_u ending app top top_ending] in *. rewrite De in K1, K2, K4.
           assert (Q : disturbed [PV e] = false) by (destruct e; try discriminate De; reflexivity). unfold due, over. rewrite nets_app, pvs_app, delivered_app, disturbed_app, Q, orb_false_r. cbn [nets pvs flat_map app delivered filter]. rewrite De, !app_nil_r. fold (due tr) (over tr).
           rewrite app_nil_r in K1. split; [exact K1|]. split; [destruct K2 as [x K2]; exists x; rewrite <- app_assoc; exact K2|]. split; [exact K3|]. split; [exact K4|discriminate].
        -- assert (Z : its = [] /\ new = [] /\ evs = [] /\ st' = st). { cbn [ProxyModel.pstep fstep] in X. injection X as <- <- <- <-. rewrite p_eta. auto. }
           destruct Z as (-> & -> & -> & ->). rewrite !app_nil_r. split; [exact U|]. split; [left; exact Sc|]. cbn [pend_c pend_u ending app] in *. rewrite Tc, Tu, Te. split; [exact K1|]. split; [exact K2|]. split; [exact K3|]. split; [exact K4|discriminate].
    + assert (Fs := Sub (ex_intro _ n eq_refl)). assert (Z : exists y, its = PI (FDo (fc n)) :: y /\ forallb clean y = true /\ new = [] /\ evs = [PNet n] /\ st' = st).
      { destruct n; cbn [ProxyModel.pstep] in X; rewrite Fs in X; injection X as <- <- <- <-; eexists; (split; [reflexivity|]); auto. }
      destruct Z as (y & -> & Cy & -> & -> & ->). rewrite app_nil_r. split; [exact U|]. cbn [app top top_ending].
      split; [right; eexists _, _; split; [reflexivity|]; split; [destruct n; reflexivity|rewrite forallb_app, Cy; exact Sc]|].
      unfold due, over. rewrite nets_app, pvs_app, delivered_app, disturbed_app. cbn [nets pvs flat_map delivered filter]. rewrite map_app, expected_app, existsb_app. fold (due tr) (over tr). cbn [map existsb app filter]. rewrite ?app_nil_r.
      replace (disturbed [PNet n]) with false by reflexivity. rewrite !orb_false_r. cbn [pend_c pend_u ending app] in *. rewrite app_nil_r in K1, K4.
      assert (Ex : expected g [fc n] = delivers g (fc n)) by (destruct n; cbn; rewrite ?app_nil_r; reflexivity).
      assert (En : closes (fc n) && is_sink (fc n) = closes (fc n)) by (destruct n; reflexivity).
      split; [|split; [|split; [|split]]].
      * intro Cl. rewrite (K1 Cl). destruct (over tr) eqn:Ov; [discriminate (K3 Cl eq_refl)|]. rewrite Ex. reflexivity.
      * destruct K2 as [x K2]. rewrite K2. eexists. rewrite <- app_assoc. reflexivity.
      * intros Cl Ov. rewrite En. destruct (over tr) eqn:Ov'; [discriminate (K3 Cl eq_refl)|]. exact Ov.
      * intros D Cl. destruct (K4 D Cl) as [K6 K7]. rewrite K7, K6, app_nil_r. split; reflexivity.
      * rewrite En. intros ->. apply orb_true_r.
Qed.

Lemma kinv_call : forall st l stack rest tr c, kinv st (l ++ (PI FUser :: stack) :: rest) tr -> pcalls c = true -> kinv st (l ++ (PI (FDo c) :: PI FUser :: stack) :: rest) tr.
Proof.
  intros st l stack rest tr c K Pc. assert (Cc : clean (PI (FDo c)) = true) by (destruct c; discriminate Pc || reflexivity). rewrite <- (app_nil_r tr). refine (kinv_calm _ _ _ _ _ [] K eq_refl eq_refl (or_introl (conj eq_refl eq_refl)) _).
  intros d us E U S. destruct l as [|x l]; cbn [app] in E |- *.
  - injection E as <- <-. eexists _, _. split; [reflexivity|]. split; [exact U|]. right. assert (S' : forallb clean (PI FUser :: stack) = true).
    { destruct S as [S|(it' & t & S & Sh & Sc)]; [exact S|]. injection S as <- <-. discriminate Sh. }
    split; [exact S'|]. cbn [forallb] in *. rewrite Cc. exact S'.
  - injection E as <- <-. eexists _, _. split; [reflexivity|]. split; [|left; reflexivity]. destruct (clean_split _ _ _ U) as (U1 & U2 & U3). rewrite forallb_app. cbn [forallb]. rewrite Cc, U1, U3. cbn [forallb] in U2. rewrite U2. reflexivity.
Qed.
Lemma kinv_return : forall st l stack rest tr, kinv st (l ++ (PI FUser :: stack) :: rest) tr -> kinv st (l ++ stack :: rest) tr.
Proof.
  intros st l stack rest tr K. rewrite <- (app_nil_r tr). refine (kinv_calm _ _ _ _ _ [] K eq_refl eq_refl (or_introl (conj eq_refl eq_refl)) _).
  intros d us E U S. destruct l as [|x l]; cbn [app] in E |- *.
  - injection E as <- <-. eexists _, _. split; [reflexivity|]. split; [exact U|]. right. assert (S' : forallb clean (PI FUser :: stack) = true).
    { destruct S as [S|(it' & t & S & Sh & Sc)]; [exact S|]. injection S as <- <-. discriminate Sh. }
    split; [exact S'|]. cbn [forallb] in S'. apply andb_true_iff in S'. tauto.
  - injection E as <- <-. eexists _, _. split; [reflexivity|]. split; [|left; reflexivity]. destruct (clean_split _ _ _ U) as (U1 & U2 & U3). cbn [forallb] in U2. apply andb_true_iff in U2. destruct U2 as [_ U2]. rewrite forallb_app. cbn [forallb]. rewrite U1, U2, U3. reflexivity.
Qed.
Lemma kinv_net : forall st rest tr n, kinv st ([PI FUser] :: rest) tr -> kinv st ([PNetDo n; PI FUser] :: rest) tr.
Proof.
  intros st rest tr n [(d & us & E & U & S & K1 & K2 & K3 & K4 & K5)]. injection E as <- <-. constructor. eexists _, _. split; [reflexivity|]. split; [exact U|]. cbn [top top_ending pend_c pend_u ending] in *.
  split; [right; eexists _, _; repeat split|]. split; [exact K1|]. split; [exact K2|]. split; [exact K3|]. split; [exact K4|discriminate].
Qed.

(** Once the dispatcher is idle. *)
Lemma kinv_idle : forall st us tr, kinv st ([PI FUser] :: us) tr -> disturbed tr = false -> delivered (pvs tr) = due tr.
Proof.
  intros st us tr [(d & us' & E & U & S & K1 & K2 & K3 & K4 & K5)] D. injection E as <- <-. cbn [top pend_c pend_u app] in *. destruct (f_closed (p_fl st)).
  - destruct (K4 D eq_refl) as [K _]. rewrite app_nil_r in K. symmetry. exact K.
  - rewrite app_nil_r in K1. symmetry. exact (K1 eq_refl).
Qed.
Lemma kinv_prefix : forall st ths tr, kinv st ths tr -> exists x, due tr = delivered (pvs tr) ++ x.
Proof. intros st ths tr [(d & us' & E & U & S & K1 & [x K2] & _)]. eexists. exact K2. Qed.

(** Any item: what is sent and registered. *)
Lemma any_step : forall st it st' its new evs, pstep st it = Some (st', its, new, evs) -> hot it = true \/ clean it = true ->
  Forall up_frame (psent evs) /\ f_sub (p_fl st') = f_sub (p_fl st) || registers_now evs.
Proof.
  intros st it st' its new evs X [Ho|C]; [|destruct (clean_step _ _ _ _ _ _ C X) as (_ & _ & _ & _ & _ & A & B); split; assumption].
  destruct it as [it|n|]; [|destruct n; cbn [ProxyModel.pstep] in X; injection X as <- <- <- <-; (split; [apply Forall_nil|cbn; rewrite orb_false_r; reflexivity])|discriminate Ho].
  destruct it as [|n|c|c|on e| | |n|n|n|sg|sg]; try discriminate X; try discriminate Ho.
  - destruct c; try discriminate Ho; cbn [ProxyModel.pstep fstep] in X; destruct (f_sub (p_fl st)) eqn:Fs; try discriminate X; destruct (f_closed (p_fl st)) eqn:Fc; injection X as <- <- <- <-; (split; [apply Forall_nil|cbn; rewrite Fs; reflexivity]).
  - destruct c; try discriminate Ho; cbn [ProxyModel.pstep fstep] in X; injection X as <- <- <- <-; (split; [apply Forall_nil|cbn; rewrite orb_false_r; reflexivity]).
  - destruct on, e; try discriminate Ho; cbn [ProxyModel.pstep fstep] in X; injection X as <- <- <- <-; (split; [apply Forall_nil|cbn; rewrite orb_false_r; reflexivity]).
Qed.
Lemma kinv_item : forall st l it stack rest tr, kinv st (l ++ (it :: stack) :: rest) tr -> hot it = true \/ clean it = true.
Proof.
  intros st l it stack rest tr [(d & us & E & U & S & _)]. destruct l as [|x l]; cbn [app] in E; injection E as <- <-.
  - destruct S as [S|(it' & t & S & Sh & Sc)]; [right; cbn [forallb] in S; apply andb_true_iff in S; tauto|]. injection S as <- <-. left; exact Sh.
  - right. destruct (clean_split _ _ _ U) as (_ & U2 & _). cbn [forallb] in U2. apply andb_true_iff in U2. tauto.
Qed.

(** Before it is subscribed. *)
Definition early (it : pitem) : bool := match it with PI FUser => true | PI (FDo c) => pcalls c | _ => false end.
Lemma early_step : forall st it st' its new evs, early it = true -> f_sub (p_fl st) = false -> pstep st it = Some (st', its, new, evs) ->
  f_sub (p_fl st') = true \/ (f_sub (p_fl st') = false /\ its = [] /\ new = [] /\ psent evs = [] /\ nets evs = []).
Proof.
  intros st it st' its new evs Ea Fs X. destruct it as [it|n|]; try discriminate Ea. destruct it as [|n|c|c|on e| | |n|n|n|sg|sg]; try discriminate Ea; try discriminate X.
  destruct c; try discriminate Ea; cbn [ProxyModel.pstep fstep] in X; rewrite ?Fs in X; cbn [negb andb] in X; try discriminate X; injection X as <- <- <- <-; [left; reflexivity|right]. repeat split. exact Fs.
Qed.
(** Registering, sending. *)
Lemma first_step : forall st it st' its new evs, pstep st it = Some (st', its, new, evs) -> registers_now evs = true -> psent evs = [] /\ f_sub (p_fl st) = false.
Proof.
  intros st it st' its new evs X R. destruct it as [it|n|]; [|destruct n; cbn [ProxyModel.pstep] in X; injection X as <- <- <- <-; discriminate R|cbn [ProxyModel.pstep] in X; injection X as <- <- <- <-; discriminate R].
  assert (G : forall i, match fstep sp g (p_fl st) i with Some (fl, its, new, evs) => Some (mkP fl (p_first st) (p_complete st), map PI its, map (map PI) new, map PV evs) | None => None end = Some (st', its, new, evs) -> False).
  { intros i Z. destruct (fstep sp g (p_fl st) i) as [[[[fl is] nw] ev]|]; [|discriminate Z]. injection Z as <- <- <- <-. rewrite registers_PV in R. discriminate R. }
  destruct it as [|n|c|c|on e| | |n|n|n|sg|sg]; try (exfalso; match type of X with ProxyModel.pstep _ _ _ _ _ (_ ?i) = _ => exact (G i X) end).
  - destruct c; try (exfalso; match type of X with ProxyModel.pstep _ _ _ _ _ (_ ?i) = _ => exact (G i X) end). cbn [ProxyModel.pstep fstep] in X. destruct (f_sub (p_fl st)); [discriminate X|]. injection X as <- <- <- <-. split; reflexivity.
  - destruct on; [|exfalso; exact (G (FEmit false e) X)]. destruct e; try (exfalso; match type of X with ProxyModel.pstep _ _ _ _ _ (_ ?i) = _ => exact (G i X) end); cbn [ProxyModel.pstep] in X; [destruct (p_complete st); [|destruct (p_first st)]|]; injection X as <- <- <- <-; discriminate R.
Qed.
End Requester.

(** ** The responder *)
Section Responder.
Context (sr : bool) (gin : fcfg) (sid initial : N).
Notation rstep := (rstep sr gin sid initial).

(** Items of a stream whose requester sends nothing but requests. *)
Definition no_in (it : ritem) : bool := match it with RI _ => false | _ => true end.
Definition fit (it : ritem) : Prop := match it with RO (FDo c) => sendable_call c | _ => True end.

Lemma Forall_map_RO : forall its, Forall (fun it => match it with FDo c => sendable_call c | _ => True end) its -> Forall fit (map RO its).
Proof. induction 1 as [|it its A F IH]; [constructor|]. constructor; [destruct it; exact A|exact IH]. Qed.
Lemma Forall_map_ROs : forall new, Forall (Forall (fun it => match it with FDo c => sendable_call c | _ => True end)) new -> Forall (Forall fit) (map (map RO) new).
Proof. induction 1 as [|x l A F IH]; [constructor|]. constructor; [apply Forall_map_RO; exact A|exact IH]. Qed.
Lemma no_in_RO : forall its, forallb no_in (map RO its) = true.
Proof. induction its; [reflexivity|assumption]. Qed.
Lemma no_in_ROs : forall new, forallb (forallb no_in) (map (map RO) new) = true.
Proof. induction new as [|x l IH]; [reflexivity|]. cbn [map forallb]. rewrite no_in_RO. exact IH. Qed.
Lemma fstep_fit : forall st i st' its new evs, @fstep pay bytes sr resp_cfg st i = Some (st', its, new, evs) ->
  Forall (fun it => match it with FDo c => sendable_call c | _ => True end) its /\ Forall (Forall (fun it => match it with FDo c => sendable_call c | _ => True end)) new.
Proof.
  intros st i st' its new evs X. destruct i as [|n|c|c|on e| | |n|n|n|sg|sg]; cbn [fstep] in X; try discriminate X.
  - destruct c; repeat match type of X with context [if ?b then _ else _] => destruct b end; try discriminate X; injection X as <- <- <- <-; repeat constructor.
  - destruct c; try discriminate X; injection X as <- <- <- <-; repeat constructor. destruct (0 <? f_n st)%Z; repeat constructor.
  - destruct on; [destruct e|]; injection X as <- <- <- <-; repeat constructor.
  - injection X as <- <- <- <-. split; [|constructor]. destruct (f_n st =? 0)%Z; repeat constructor.
  - injection X as <- <- <- <-; repeat constructor.
  - injection X as <- <- <- <-. split; [|constructor]. destruct (f_req st); repeat constructor.
  - destruct sr; injection X as <- <- <- <-; repeat constructor.
  - destruct (f_req st); [|discriminate X]. injection X as <- <- <- <-; repeat constructor.
  - injection X as <- <- <- <-; repeat constructor.
  - injection X as <- <- <- <-. split; [|constructor]. induction (f_cbs st); cbn; constructor; [exact Logic.I|assumption].
Qed.
Lemma Forall_calls : forall evs : list (fevent pay bytes), Forall sendable_call (fcalls evs) -> Forall sendable_call (out_calls (map ROV evs)).
Proof.
  induction evs as [|e l IH]; [constructor|]. unfold fcalls. cbn [map flat_map out_calls]. intro F. apply Forall_app in F. destruct F as [F1 F2]. apply Forall_app. split; [destruct e; assumption|exact (IH F2)].
Qed.
Lemma fstep_calls : forall st i st' its new evs, @fstep pay bytes sr resp_cfg st i = Some (st', its, new, evs) -> (match i with FEmit _ (VCall _) => False | FDo c => sendable_call c | _ => True end) -> Forall sendable_call (fcalls evs).
Proof.
  intros st i st' its new evs X Hi. destruct i as [|n|c|c|on e| | |n|n|n|sg|sg]; cbn [fstep] in X; try discriminate X.
  - destruct c; repeat match type of X with context [if ?b then _ else _] => destruct b end; try discriminate X; injection X as <- <- <- <-; repeat constructor; exact Hi.
  - destruct c; try discriminate X; injection X as <- <- <- <-; constructor.
  - destruct on; [destruct e; try contradiction|]; injection X as <- <- <- <-; constructor.
  - injection X as <- <- <- <-; constructor.
  - injection X as <- <- <- <-; constructor.
  - injection X as <- <- <- <-; constructor.
  - destruct sr; injection X as <- <- <- <-; constructor.
  - destruct (f_req st); [|discriminate X]. injection X as <- <- <- <-; constructor.
  - injection X as <- <- <- <-; constructor.
  - injection X as <- <- <- <-; constructor.
Qed.
Definition net_requests (tr : list revent) : list N := flat_map (fun e => match e with RNet (RNRequest n) => [n] | _ => [] end) tr.
Lemma net_requests_app : forall a b, net_requests (a ++ b) = net_requests a ++ net_requests b.
Proof. intros. apply flat_map_app. Qed.
Lemma net_requests_ROV : forall evs, net_requests (map ROV evs) = [].
Proof. induction evs; [reflexivity|assumption]. Qed.

(** Requests on their way. *)
Definition asked (it : ritem) : list N := match it with RNetDo (RNRequest n) => [n] | _ => [] end.
Lemma asked_RO : forall its, flat_map asked (map RO its) = [].
Proof. induction its; [reflexivity|assumption]. Qed.
Lemma asked_ROs : forall new, flat_map (flat_map asked) (map (map RO) new) = [].
Proof. induction new as [|x l IH]; [reflexivity|]. cbn [map flat_map]. rewrite asked_RO. exact IH. Qed.

Lemma r_step : forall st it st' its new evs, no_in it = true -> fit it -> sound it = true -> f_sub (r_in st) = false -> rstep st it = Some (st', its, new, evs) ->
  forallb no_in its = true /\ forallb (forallb no_in) new = true /\ Forall fit its /\ Forall (Forall fit) new /\ f_sub (r_in st') = false /\ sent_frames evs = answers evs /\
  Forall sendable_call (out_calls evs) /\ net_requests evs = asked it /\ flat_map asked its = [] /\ flat_map (flat_map asked) new = [].
Proof.
  intros st it st' its new evs N F S I X.
  assert (G : forall i, (match i with FEmit _ (VCall _) => False | FDo c => sendable_call c | _ => True end) -> match fstep sr resp_cfg (r_out st) i with Some (fl, its, new, evs) => Some (mkR fl (r_in st) (r_sub st), map RO its, map (map RO) new, map ROV evs) | None => None end = Some (st', its, new, evs) ->
    forallb no_in its = true /\ forallb (forallb no_in) new = true /\ Forall fit its /\ Forall (Forall fit) new /\ f_sub (r_in st') = false /\ sent_frames evs = answers evs /\
    Forall sendable_call (out_calls evs) /\ net_requests evs = [] /\ flat_map asked its = [] /\ flat_map (flat_map asked) new = []).
  { intros i Hi Z. destruct (fstep sr resp_cfg (r_out st) i) as [[[[fl is] nw] ev]|] eqn:Fs; [|discriminate Z]. injection Z as <- <- <- <-. destruct (fstep_fit _ _ _ _ _ _ Fs) as [A B].
    split; [apply no_in_RO|]. split; [apply no_in_ROs|]. split; [apply Forall_map_RO; exact A|]. split; [apply Forall_map_ROs; exact B|].
    split; [exact I|]. split; [rewrite (no_answers _ (sent_ROV ev)); apply sent_ROV|]. split; [apply Forall_calls; exact (fstep_calls _ _ _ _ _ _ Fs Hi)|]. split; [apply net_requests_ROV|]. split; [apply asked_RO|apply asked_ROs]. }
  destruct it as [it|it| | |c]; try discriminate N.
  - destruct it as [|n|c|c|on e| | |n|n|n|sg|sg]; try (match type of X with ResponderModel.rstep _ _ _ _ _ (_ ?i) = _ => exact (G i F X) end); try (match type of X with ResponderModel.rstep _ _ _ _ _ (_ ?i) = _ => exact (G i Logic.I X) end).
    destruct on.
    + cbn [ResponderModel.rstep] in X. destruct (frame_of sid e) as [f|] eqn:Fr.
      * injection X as <- <- <- <-. repeat split; try constructor; [exact I| |]; destruct e; try discriminate Fr; injection Fr as <-; try reflexivity; constructor.
      * apply (G (FEmit true e)); [|exact X]. destruct e; try exact Logic.I. discriminate S.
    + apply (G (FEmit false e)); [|exact X]. destruct e; try exact Logic.I. discriminate S.
  - cbn in X. injection X as <- <- <- <-. repeat split; repeat constructor. exact I.
  - cbn in X. injection X as <- <- <- <-. repeat split; repeat constructor. exact I.
  - destruct c; cbn [ResponderModel.rstep] in X; rewrite ?I in X; try discriminate X. destruct (r_sub st); [|discriminate X]. injection X as <- <- <- <-. repeat split; repeat constructor. exact I.
Qed.

(** Before the handler's flux is subscribed. *)
Definition rearly (it : ritem) : bool := match it with RO FUser => true | RO (FDo c) => rcalls c | RNetDo _ => true | _ => false end.
Lemma rearly_step : forall st it st' its new evs, rearly it = true -> f_sub (r_out st) = false -> f_sub (r_in st) = false -> r_sub st = false -> rstep st it = Some (st', its, new, evs) ->
  f_sub (r_out st') = false /\ r_sub st' = false /\ its = [] /\ new = [] /\ sent_frames evs = [].
Proof.
  intros st it st' its new evs Ea Fs Fi Rs X. destruct it as [it|it| | |n]; try discriminate Ea.
  - destruct it as [|n|c|c|on e| | |n|n|n|sg|sg]; try discriminate Ea; try discriminate X.
    destruct c; try discriminate Ea; cbn [ResponderModel.rstep fstep] in X; rewrite ?Fs in X; cbn [negb andb] in X; try discriminate X; injection X as <- <- <- <-. repeat split; assumption.
  - destruct n; cbn [ResponderModel.rstep] in X; rewrite ?Fi, ?Rs in X; discriminate X.
Qed.
End Responder.
