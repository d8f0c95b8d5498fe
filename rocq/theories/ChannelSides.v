(** The two ends of a channel, each with its own dispatcher: projections to the machines of a stream, and what their steps preserve. *)
From Coq Require Import List NArith ZArith Bool Lia.
From Verif Require Import Base FramesModel FramesSpec InvokeModel MonoModel FluxModel FluxSpec ProxyModel ProxySpec DispatchModel ResponderModel ResponderSpec ResponderProofs ResponderSerial.
From Verif Require Import StreamModel StreamSpec StreamSides ChannelModel ChannelSpec.
Import ListNotations.

(** ** More about one dispatcher's sink calls *)
Section Kinv.
Context (g : fcfg).
Notation kinv := (kinv g).

Lemma kinv_ext : forall st ths tr tr', kinv st ths tr -> pvs tr' = pvs tr -> nets tr' = nets tr -> kinv st ths tr'.
Proof.
  intros st ths tr tr' [(d & us & K)] P N. assert (D : disturbed tr' = disturbed tr) by (unfold disturbed; rewrite P; reflexivity). constructor. exists d, us. unfold due, over in *. rewrite P, N, D. exact K.
Qed.
Lemma kinv_fl : forall st st' ths tr, kinv st ths tr -> p_fl st' = p_fl st -> kinv st' ths tr.
Proof. intros st st' ths tr [(d & us & K)] E. constructor. exists d, us. rewrite E. exact K. Qed.

(** An item that delivers nothing is replaced by such items. *)
Lemma kinv_clean : forall st l it stack rest tr st' its new evs, kinv st (l ++ (it :: stack) :: rest) tr -> clean it = true -> forallb clean its = true -> forallb (forallb clean) new = true ->
  delivered (pvs evs) = [] -> nets evs = [] ->
  (f_closed (p_fl st') = f_closed (p_fl st) /\ disturbed evs = false \/ f_closed (p_fl st') = true /\ disturbed evs = true) ->
  kinv st' (l ++ (its ++ stack) :: rest ++ new) (tr ++ evs).
Proof.
  intros st l it stack rest tr st' its new evs K C C1 C2 D N Cl. apply (kinv_calm g _ _ _ _ _ _ K D N Cl). intros d us E U S. destruct l as [|x l]; cbn [app] in E |- *.
  - injection E as <- <-. exists (its ++ stack), (rest ++ new). split; [reflexivity|]. split; [rewrite forallb_app, U, C2; reflexivity|]. right.
    assert (S' : forallb clean stack = true). { destruct S as [S|(it' & t & S & Sh & Sc)]; [cbn [forallb] in S; apply andb_true_iff in S; tauto|]. injection S as <- <-. exact Sc. }
    split; [cbn [forallb]; rewrite C; exact S'|]. rewrite forallb_app, C1, S'. reflexivity.
  - injection E as <- <-. exists x, (l ++ (its ++ stack) :: rest ++ new). split; [reflexivity|]. split; [|left; reflexivity]. destruct (clean_split _ _ _ U) as (U1 & U2 & U3). cbn [forallb] in U2. apply andb_true_iff in U2. destruct U2 as [_ U2].
    rewrite forallb_app. cbn [forallb]. rewrite !forallb_app, U1, C1, U2, U3, C2. reflexivity.
Qed.
Lemma kinv_swap : forall st l it stack rest tr its new, kinv st (l ++ (it :: stack) :: rest) tr -> clean it = true -> forallb clean its = true -> forallb (forallb clean) new = true ->
  kinv st (l ++ (its ++ stack) :: rest ++ new) tr.
Proof. intros st l it stack rest tr its new K C C1 C2. rewrite <- (app_nil_r tr). eapply kinv_clean; try eassumption; try reflexivity. left. split; reflexivity. Qed.
Lemma kinv_trim : forall st it x t us tr, kinv st ((it :: x :: t) :: us) tr -> clean x = true -> kinv st ((it :: t) :: us) tr.
Proof.
  intros st it x t us tr [(d & us' & E & U & S & K)] C. injection E as <- <-. constructor. exists (it :: t), us. split; [reflexivity|]. split; [exact U|]. split; [|exact K].
  destruct S as [S|(it' & t' & S & Sh & Sc)]; [left; cbn [forallb] in *; rewrite !andb_true_iff in *; tauto|]. injection S as <- <-. right. exists it, t. split; [reflexivity|]. split; [exact Sh|]. cbn [forallb] in Sc. apply andb_true_iff in Sc. tauto.
Qed.
(** Hot items are on the first thread. *)
Lemma kinv_first : forall st l it stack rest tr, kinv st (l ++ (it :: stack) :: rest) tr -> clean it = false -> l = [] /\ hot g it = true.
Proof.
  intros st l it stack rest tr K C. assert (Hi := kinv_item g _ _ _ _ _ _ K). split; [|destruct Hi as [Hi|Hi]; [exact Hi|congruence]].
  destruct K as [(d & us & E & U & S & _)]. destruct l as [|x l]; [reflexivity|]. cbn [app] in E. injection E as <- <-. destruct (clean_split _ _ _ U) as (_ & U2 & _). cbn [forallb] in U2. rewrite C in U2. discriminate U2.
Qed.
End Kinv.

(** Another request, the same machine. *)
Lemma pstep_request : forall sp g r r' st it st' its new evs, pstep sp g r false st it = Some (st', its, new, evs) ->
  exists evs', pstep sp g r' false st it = Some (st', its, new, evs') /\ pvs evs' = pvs evs /\ nets evs' = nets evs /\ registers_now evs' = registers_now evs.
Proof.
  intros sp g r r' st it st' its new evs X. destruct it as [it|n|]; [|exists evs; split; [destruct n; exact X|auto]|exists evs; split; [exact X|auto]].
  destruct it as [|n|c|c|on e| | |n|n|n|sg|sg]; try (solve [exists evs; split; [exact X|auto]]).
  destruct on; [|exists evs; split; [exact X|auto]]. destruct e; try (solve [exists evs; split; [exact X|auto]]).
  - cbn [ProxyModel.pstep] in *. destruct (p_complete st); [|destruct (p_first st)]; injection X as <- <- <- <-; eexists; repeat split.
  - cbn [ProxyModel.pstep] in *. injection X as <- <- <- <-; eexists; repeat split.
Qed.
Lemma kinv_pstep : forall sp g r st l it stack rest tr st' its new evs, kinv g st (l ++ (it :: stack) :: rest) tr -> pstep sp g r false st it = Some (st', its, new, evs) ->
  ((exists n, it = PNetDo n) -> f_sub (p_fl st) = true) -> kinv g st' (l ++ (its ++ stack) :: rest ++ new) (tr ++ evs).
Proof.
  intros sp g r st l it stack rest tr st' its new evs K X S. destruct (pstep_request sp g r (stream_request 0 [] []) _ _ _ _ _ _ X) as (evs' & X' & Pv & Nt & _).
  eapply kinv_ext; [exact (kinv_step sp g 0%N [] [] _ _ _ _ _ _ _ _ _ _ K X' S)| |]; rewrite ?pvs_app, ?nets_app; congruence.
Qed.

(** ** Projections *)
Definition pit (it : qitem) : pitem := match it with QP it => it | QI it => if is_ruser it then PI FUser else PSetComplete end.
Definition iit (it : qitem) : ritem := match it with QI it => it | QP (PI FUser) => RO FUser | QP _ => RStart end.
Definition rit (it : ritem) : pitem :=
  match it with
  | RI it => PI it
  | RNetDo (RNNext v) => PNetDo (NNext v) | RNetDo RNComplete => PNetDo NComplete | RNetDo (RNError e) => PNetDo (NError e)
  | _ => if is_ruser it then PI FUser else PSetComplete
  end.
Definition pev (tr : list qevent) : list pevent := flat_map (fun e => match e with EP e => [e] | _ => [] end) tr.
Definition iev (tr : list qevent) : list revent := flat_map (fun e => match e with EI e => [e] | _ => [] end) tr.
Definition rev_of (tr : list revent) : list pevent :=
  flat_map (fun e => match e with RIV e => [PV e] | RNet (RNNext v) => [PNet (NNext v)] | RNet RNComplete => [PNet NComplete] | RNet (RNError e) => [PNet (NError e)] | _ => [] end) tr.
Definition rpst (r : rst) : pst := mkP (r_in r) false false.

Lemma pev_app : forall a b, pev (a ++ b) = pev a ++ pev b. Proof. intros. apply flat_map_app. Qed.
Lemma iev_app : forall a b, iev (a ++ b) = iev a ++ iev b. Proof. intros. apply flat_map_app. Qed.
Lemma rev_app : forall a b, rev_of (a ++ b) = rev_of a ++ rev_of b. Proof. intros. apply flat_map_app. Qed.
Lemma qsent_app : forall a b, qsent (a ++ b) = qsent a ++ qsent b. Proof. intros. apply flat_map_app. Qed.
Lemma pev_EP : forall evs, pev (map EP evs) = evs. Proof. induction evs as [|e l IH]; [reflexivity|]. cbn. f_equal. exact IH. Qed.
Lemma pev_EI : forall evs, pev (map EI evs) = []. Proof. induction evs as [|e l IH]; [reflexivity|]. exact IH. Qed.
Lemma iev_EP : forall evs, iev (map EP evs) = []. Proof. induction evs as [|e l IH]; [reflexivity|]. exact IH. Qed.
Lemma iev_EI : forall evs, iev (map EI evs) = evs. Proof. induction evs as [|e l IH]; [reflexivity|]. cbn. f_equal. exact IH. Qed.
Lemma qsent_EP : forall evs, qsent (map EP evs) = psent evs. Proof. induction evs as [|e l IH]; [reflexivity|]. cbn [map qsent psent flat_map]. f_equal; first [exact IH|destruct e; reflexivity]. Qed.
Lemma qsent_EI : forall evs, qsent (map EI evs) = sent_frames evs. Proof. induction evs as [|e l IH]; [reflexivity|]. cbn [map qsent sent_frames flat_map]. f_equal; first [exact IH|destruct e; reflexivity]. Qed.
Lemma qreg_EP : forall evs, qregisters (map EP evs) = registers_now evs. Proof. induction evs as [|e l IH]; [reflexivity|]. cbn [map qregisters registers_now existsb]. f_equal; first [exact IH|destruct e; reflexivity]. Qed.
Lemma qreg_EI : forall evs, qregisters (map EI evs) = false. Proof. induction evs as [|e l IH]; [reflexivity|]. exact IH. Qed.
Lemma pit_QP : forall its, map pit (map QP its) = its. Proof. induction its as [|e l IH]; [reflexivity|]. cbn. f_equal. exact IH. Qed.
Lemma pit_QPs : forall new, map (map pit) (map (map QP) new) = new. Proof. induction new as [|e l IH]; [reflexivity|]. cbn [map]. rewrite pit_QP. f_equal. exact IH. Qed.
Lemma iit_QI : forall its, map iit (map QI its) = its. Proof. induction its as [|e l IH]; [reflexivity|]. cbn. f_equal. exact IH. Qed.
Lemma iit_QIs : forall new, map (map iit) (map (map QI) new) = new. Proof. induction new as [|e l IH]; [reflexivity|]. cbn [map]. rewrite iit_QI. f_equal. exact IH. Qed.
Lemma iit_QP_wait : forall its, forallb wait (map iit (map QP its)) = true.
Proof. induction its as [|e l IH]; [reflexivity|]. cbn [map forallb]. rewrite IH, andb_true_r. destruct e as [e|n|]; try reflexivity. destruct e; reflexivity. Qed.
Lemma iit_QPs_wait : forall new, forallb (forallb wait) (map (map iit) (map (map QP) new)) = true.
Proof. induction new as [|e l IH]; [reflexivity|]. cbn [map forallb]. rewrite iit_QP_wait. exact IH. Qed.
Lemma pit_QI_clean : forall it, clean (pit (QI it)) = true. Proof. intro it. cbn [pit]. destruct (is_ruser it); reflexivity. Qed.
Lemma pit_QIs_clean : forall its, forallb clean (map pit (map QI its)) = true. Proof. induction its as [|e l IH]; [reflexivity|]. cbn [map forallb]. rewrite pit_QI_clean. exact IH. Qed.
Lemma pit_QIss_clean : forall new, forallb (forallb clean) (map (map pit) (map (map QI) new)) = true. Proof. induction new as [|e l IH]; [reflexivity|]. cbn [map forallb]. rewrite pit_QIs_clean. exact IH. Qed.
Lemma rit_RI : forall its, map rit (map RI its) = map PI its. Proof. induction its as [|e l IH]; [reflexivity|]. cbn. f_equal. exact IH. Qed.
Lemma rit_RIs : forall new, map (map rit) (map (map RI) new) = map (map PI) new. Proof. induction new as [|e l IH]; [reflexivity|]. cbn [map]. rewrite rit_RI. f_equal. exact IH. Qed.
Lemma rit_RO_clean : forall it, clean (rit (RO it)) = true. Proof. intro it. cbn [rit]. destruct (is_ruser (RO it)); reflexivity. Qed.
Lemma rit_ROs_clean : forall its, forallb clean (map rit (map RO its)) = true. Proof. induction its as [|e l IH]; [reflexivity|]. cbn [map forallb]. rewrite rit_RO_clean. exact IH. Qed.
Lemma rit_ROss_clean : forall new, forallb (forallb clean) (map (map rit) (map (map RO) new)) = true. Proof. induction new as [|e l IH]; [reflexivity|]. cbn [map forallb]. rewrite rit_ROs_clean. exact IH. Qed.
Lemma rev_ROV : forall evs, rev_of (map ROV evs) = []. Proof. induction evs as [|e l IH]; [reflexivity|]. exact IH. Qed.
Lemma rev_RIV : forall evs, rev_of (map RIV evs) = map PV evs. Proof. induction evs as [|e l IH]; [reflexivity|]. cbn. f_equal. exact IH. Qed.
Lemma map_at : forall {A B} (f : A -> B) l x rest, map (map f) (l ++ x :: rest) = map (map f) l ++ map f x :: map (map f) rest.
Proof. intros. rewrite map_app. reflexivity. Qed.
Lemma map_at2 : forall {A B} (f : A -> B) l its stack rest new, map (map f) (l ++ (its ++ stack) :: rest ++ new) = map (map f) l ++ (map f its ++ map f stack) :: map (map f) rest ++ map (map f) new.
Proof. intros. rewrite map_app. cbn [map]. rewrite !map_app. reflexivity. Qed.

(** ** The responder's input: a step of it is a step of a requester's flux *)
Section Input.
Context (sr : bool) (gin : fcfg) (sid initial : N).
Notation rstep := (rstep sr gin sid initial).
Definition any_request : request_frame := stream_request sid [] [].

Inductive input_step (st : rst) (it : ritem) (st' : rst) (its : list ritem) (new : list (list ritem)) (evs : list revent) : Prop :=
| in_flux : forall evs', (match it with RI _ => True | _ => False end) -> pstep sr gin any_request false (rpst st) (rit it) = Some (rpst st', map rit its, map (map rit) new, evs') ->
    pvs evs' = pvs (rev_of evs) -> nets evs' = nets (rev_of evs) -> psent evs' = sent_frames evs -> out_calls evs = [] -> r_out st' = r_out st -> r_sub st' = r_sub st -> input_step st it st' its new evs
| in_net : forall n c, it = RNetDo c -> rit it = PNetDo n -> f_sub (r_in st) = true -> its = [RI (FDo (fc n))] -> new = [] -> evs = [RNet c] -> st' = st -> rev_of evs = [PNet n] -> input_step st it st' its new evs
| in_other : (match it with RI _ => False | _ => True end) -> clean (rit it) = true -> r_in st' = r_in st -> forallb clean (map rit its) = true -> forallb (forallb clean) (map (map rit) new) = true ->
    forallb no_in its = true -> forallb (forallb no_in) new = true -> pvs (rev_of evs) = [] -> nets (rev_of evs) = [] -> (forall f, In f (sent_frames evs) -> is_answer f = true) -> input_step st it st' its new evs.

Lemma rstep_input : forall st it st' its new evs, rstep st it = Some (st', its, new, evs) -> input_step st it st' its new evs.
Proof.
  intros st it st' its new evs X. destruct it as [it|it| | |c].
  - apply in_other; [exact Logic.I|apply rit_RO_clean|..]; cycle 0.
    all: assert (G : forall i, match fstep sr resp_cfg (r_out st) i with Some (fl, its, new, evs) => Some (mkR fl (r_in st) (r_sub st), map RO its, map (map RO) new, map ROV evs) | None => None end = Some (st', its, new, evs) ->
      r_in st' = r_in st /\ forallb clean (map rit its) = true /\ forallb (forallb clean) (map (map rit) new) = true /\ (forallb no_in its = true /\ forallb (forallb no_in) new = true) /\ rev_of evs = [] /\ sent_frames evs = [])
      by (intros i Z; destruct (fstep sr resp_cfg (r_out st) i) as [[[[fl is] nw] ev]|]; [|discriminate Z]; injection Z as <- <- <- <-; repeat split; [apply rit_ROs_clean|apply rit_ROss_clean|apply no_in_RO|apply no_in_ROs|apply rev_ROV|apply sent_ROV]).
    all: assert (Y : r_in st' = r_in st /\ forallb clean (map rit its) = true /\ forallb (forallb clean) (map (map rit) new) = true /\ (forallb no_in its = true /\ forallb (forallb no_in) new = true) /\ rev_of evs = [] /\ (forall f, In f (sent_frames evs) -> is_answer f = true)).
    all: try (destruct it as [|n|c|c|on e| | |n|n|n|sg|sg]; try (match type of X with ResponderModel.rstep _ _ _ _ _ (_ ?i) = _ => destruct (G i X) as (Y1 & Y2 & Y3 & [Y6 Y7] & Y4 & Y5); repeat split; try assumption; rewrite Y5; intros f [] end);
      destruct on; [|destruct (G (FEmit false e) X) as (Y1 & Y2 & Y3 & [Y6 Y7] & Y4 & Y5); repeat split; try assumption; rewrite Y5; intros f []];
      cbn [ResponderModel.rstep] in X; destruct (frame_of sid e) as [f|] eqn:F; [|destruct (G (FEmit true e) X) as (Y1 & Y2 & Y3 & [Y6 Y7] & Y4 & Y5); repeat split; try assumption; rewrite Y5; intros f []];
      injection X as <- <- <- <-; repeat split; intros f' [<-|[]]; eapply frame_answer; exact F).
    all: destruct Y as (Y1 & Y2 & Y3 & [Y6 Y7] & Y4 & Y5); rewrite ?Y4; try assumption; reflexivity.
  - assert (G : forall i, match fstep sr gin (r_in st) i with Some (fl, its, new, evs) => Some (mkR (r_out st) fl (r_sub st), map RI its, map (map RI) new, map RIV evs) | None => None end = Some (st', its, new, evs) ->
       match fstep sr gin (p_fl (rpst st)) i with Some (fl, its, new, evs) => Some (mkP fl (p_first (rpst st)) (p_complete (rpst st)), map PI its, map (map PI) new, map PV evs) | None => None end = Some (rpst st', map rit its, map (map rit) new, rev_of evs) /\
       psent (rev_of evs) = sent_frames evs /\ out_calls evs = [] /\ r_out st' = r_out st /\ r_sub st' = r_sub st).
    { intros i Z. cbn [rpst p_fl p_first p_complete]. destruct (fstep sr gin (r_in st) i) as [[[[fl is] nw] ev]|]; [|discriminate Z]. injection Z as <- <- <- <-. rewrite rit_RI, rit_RIs, rev_RIV, psent_PV, sent_RIV, calls_RIV. repeat split. }
    destruct it as [|n|c|c|on e| | |n|n|n|sg|sg]; try (match type of X with ResponderModel.rstep _ _ _ _ _ (_ ?i) = _ => destruct (G i X) as (G1 & G2 & G3 & G4 & G5) end; eapply (in_flux _ _ _ _ _ _ (rev_of evs)); [exact Logic.I|exact G1|reflexivity|reflexivity|exact G2|exact G3|exact G4|exact G5]).
    + destruct c; try (match type of X with ResponderModel.rstep _ _ _ _ _ (_ ?i) = _ => destruct (G i X) as (G1 & G2 & G3 & G4 & G5) end; eapply (in_flux _ _ _ _ _ _ (rev_of evs)); [exact Logic.I|exact G1|reflexivity|reflexivity|exact G2|exact G3|exact G4|exact G5]).
      cbn [ResponderModel.rstep fstep] in X. destruct (f_sub (r_in st)) eqn:Fs; [discriminate X|]. injection X as <- <- <- <-. eapply in_flux; [exact Logic.I|cbn [rit ProxyModel.pstep fstep rpst p_fl]; rewrite Fs; reflexivity|reflexivity|reflexivity|reflexivity|reflexivity|reflexivity|reflexivity].
    + destruct on; [|destruct (G (FEmit false e) X) as (G1 & G2 & G3 & G4 & G5); eapply (in_flux _ _ _ _ _ _ (rev_of evs)); [exact Logic.I|exact G1|reflexivity|reflexivity|exact G2|exact G3|exact G4|exact G5]].
      destruct e; try (match type of X with ResponderModel.rstep _ _ _ _ _ (_ ?i) = _ => destruct (G i X) as (G1 & G2 & G3 & G4 & G5) end; eapply (in_flux _ _ _ _ _ _ (rev_of evs)); [exact Logic.I|exact G1|reflexivity|reflexivity|exact G2|exact G3|exact G4|exact G5]).
      * cbn [ResponderModel.rstep] in X. injection X as <- <- <- <-. eapply in_flux; [exact Logic.I|reflexivity|reflexivity|reflexivity|reflexivity|reflexivity|reflexivity|reflexivity].
      * cbn [ResponderModel.rstep] in X. injection X as <- <- <- <-. eapply in_flux; [exact Logic.I|reflexivity|reflexivity|reflexivity|reflexivity|reflexivity|reflexivity|reflexivity].
  - cbn in X. injection X as <- <- <- <-. apply in_other; try reflexivity. intros f [].
  - cbn in X. injection X as <- <- <- <-. apply in_other; try reflexivity. intros f [].
  - destruct c; cbn [ResponderModel.rstep] in X.
    + destruct (r_sub st); [|discriminate X]. injection X as <- <- <- <-. apply in_other; try reflexivity. intros f [].
    + destruct (f_sub (r_in st)) eqn:Fs; [|discriminate X]. injection X as <- <- <- <-. eapply (in_net _ _ _ _ _ _ (NNext v)); try reflexivity. exact Fs.
    + destruct (f_sub (r_in st)) eqn:Fs; [|discriminate X]. injection X as <- <- <- <-. eapply (in_net _ _ _ _ _ _ NComplete); try reflexivity. exact Fs.
    + destruct (f_sub (r_in st)) eqn:Fs; [|discriminate X]. injection X as <- <- <- <-. eapply (in_net _ _ _ _ _ _ (NError e)); try reflexivity. exact Fs.
Qed.

Lemma rkinv_step : forall st l it stack rest tr st' its new evs, kinv gin (rpst st) (map (map rit) (l ++ (it :: stack) :: rest)) (rev_of tr) -> rstep st it = Some (st', its, new, evs) ->
  kinv gin (rpst st') (map (map rit) (l ++ (its ++ stack) :: rest ++ new)) (rev_of (tr ++ evs)).
Proof.
  intros st l it stack rest tr st' its new evs K X. rewrite map_at in K. cbn [map] in K. rewrite map_at2, rev_app. destruct (rstep_input _ _ _ _ _ _ X) as [evs' Hi P Pv Nt _ _ _ _|n c -> Ri Fs -> -> -> -> Re|No C Ei Ci Cn _ _ Pv Nt _].
  - eapply kinv_ext; [eapply kinv_pstep; [exact K|exact P|]| |].
    + intros [n E]. destruct it; contradiction || discriminate E.
    + rewrite !pvs_app, Pv. reflexivity.
    + rewrite !nets_app, Nt. reflexivity.
  - destruct (kinv_first _ _ _ _ _ _ _ K) as [El _]; [rewrite Ri; reflexivity|]. destruct l; [|discriminate El]. cbn [map app] in *. rewrite app_nil_r, Re. rewrite Ri in K.
    assert (X' : exists y, pstep sr gin any_request false (rpst st) (PNetDo n) = Some (rpst st, PI (FDo (fc n)) :: y, [], [PNet n]) /\ (y = [] \/ y = [PSetComplete])).
    { destruct n; cbn [ProxyModel.pstep rpst p_fl]; rewrite Fs; eexists; (split; [reflexivity|]); auto. }
    destruct X' as (y & X' & Y). assert (K' := kinv_pstep sr gin any_request _ [] _ _ _ _ _ _ _ _ K X' (fun _ => Fs)). cbn [app] in K'. rewrite app_nil_r in K'. destruct Y as [->| ->]; cbn [app] in K'; [exact K'|]. eapply kinv_trim; [exact K'|reflexivity].
  - eapply kinv_clean; [exact K|exact C|exact Ci|exact Cn|rewrite Pv; reflexivity|exact Nt|]. left. cbn [rpst p_fl]. rewrite Ei. split; [reflexivity|]. unfold disturbed. rewrite Pv. reflexivity.
Qed.
End Input.
