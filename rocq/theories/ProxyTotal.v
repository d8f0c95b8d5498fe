(** The credit sent is the credit asked for. *)
From Coq Require Import List NArith ZArith Bool Lia Permutation.
From Verif Require Import Base FramesModel MonoModel FluxModel ProxyModel ProxySpec ProxyProofs.
Import ListNotations.

Lemma padded_same : forall auto rs ds n, padded auto rs ds -> padded auto (rs ++ [n]) (ds ++ [n]).
Proof. intros auto rs ds n P. induction P; cbn [app]; constructor; auto. constructor. Qed.
Lemma padded_auto : forall auto rs ds, auto = true -> padded auto rs ds -> padded auto rs (ds ++ [request_max]).
Proof. intros auto rs ds A P. induction P; cbn [app]; constructor; auto. constructor. Qed.
Lemma padded_eq : forall rs ds, padded false rs ds -> ds = rs.
Proof. intros rs ds P. induction P; congruence. Qed.

Section Total.
Context (sync : bool) (g : fcfg) (r : request_frame) (has_in : bool).
Notation pstep := (pstep sync g r has_in).
Notation preach := (preach sync g r has_in).
Notation pfrom := (pfrom sync g r has_in).

Definition calm (it : pitem) : bool :=
  match it with
  | PI (FReq _) | PI (FDoReq _) | PI (FRunSrc _) | PI (FEmit true (VReqSrc _)) | PI (FEmit false (VReqSrc _)) | PI (FEmit _ (VCall _)) | PI (FDo (FOnSubscribe _ _)) | PI (FCommit _) => false
  | _ => true
  end.
Definition early (it : pitem) : bool := match it with PI FUser | PNetDo _ | PSetComplete => true | c => side_call c end.
Definition onsub (it : pitem) : bool := match it with PI (FDo (FOnSubscribe true true)) | PI (FCommit (FOnSubscribe true true)) => true | _ => false end.

Definition phase (st : pst) (stack : list pitem) : Prop :=
  let fl := p_fl st in
  (f_sub fl = false /\ f_req fl = false /\ f_n fl = 0%Z /\ f_closed fl = false /\ forallb early stack = true)
  \/ (f_sub fl = true /\ f_req fl = false /\ f_n fl = 0%Z /\ f_closed fl = false /\ exists it t, stack = it :: t /\ onsub it = true /\ forallb calm t = true)
  \/ (f_sub fl = true /\ f_req fl = true /\ exists it t, stack = it :: t /\ no_on_subscribe it = true /\ forallb calm t = true).

Definition pend (stack : list pitem) : list Z := match stack with it :: _ => under_way1 it | [] => [] end.

Lemma early_calm : forall l, forallb early l = true -> forallb calm l = true.
Proof.
  induction l as [|e t IH]; [reflexivity|]. cbn [forallb]. rewrite !andb_true_iff. intros [A B]. split; [|auto].
  destruct e as [it|c|]; try reflexivity. destruct it as [| |c|c|on ev| | | | | | |]; try discriminate A; try reflexivity. destruct c; try discriminate A; reflexivity.
Qed.
Lemma early_pend : forall l, forallb early l = true -> pend l = [].
Proof.
  intros [|e t]; [reflexivity|]. cbn [forallb]. rewrite !andb_true_iff. intros [A _].
  destruct e as [it|c|]; try reflexivity. destruct it as [| |c|c|on ev| | | | | | |]; try discriminate A; try reflexivity.
Qed.
Lemma calm_notonsub : forall e, calm e = true -> no_on_subscribe e = true.
Proof. destruct e as [it|c|]; try reflexivity. destruct it as [| |c|c|on ev| | | | | | |]; try reflexivity; try discriminate; [destruct c; try reflexivity; discriminate|]. destruct on; destruct ev; reflexivity || discriminate. Qed.
Lemma calm_under : forall e, calm e = true -> under_way1 e = [].
Proof. destruct e as [it|c|]; try reflexivity. destruct it as [| |c|c|on ev| | | | | | |]; try reflexivity; try discriminate. destruct on; destruct ev; reflexivity || discriminate. Qed.
Lemma call_calm : forall c, side_call c = true -> calm c = true.
Proof. destruct c as [it|c|]; try reflexivity. destruct it as [| |c|c|on ev| | | | | | |]; try reflexivity; try discriminate. destruct c; reflexivity || discriminate. Qed.
Lemma call_early : forall c, side_call c = true -> early c = true.
Proof. destruct c as [it|c|]; try reflexivity. destruct it as [| |c|c|on ev| | | | | | |]; try reflexivity; try discriminate; cbn; auto. Qed.

Lemma requests_app : forall a b, requests (a ++ b) = requests a ++ requests b.
Proof. intros. apply flat_map_app. Qed.

(** What one step does to the requests. *)
Inductive moves (stack : list pitem) (st : pst) (it : pitem) (st' : pst) (its : list pitem) (evs : list pevent) : Prop :=
| mv : phase st' (its ++ stack) -> completed evs = false \/ (requests evs = [] /\ demands evs = [] /\ pend (it :: stack) = [] /\ pend (its ++ stack) = []) ->
   (requests evs = [] /\ demands evs ++ pend (its ++ stack) = pend (it :: stack)
    \/ (exists n, requests evs = [n] /\ demands evs = [] /\ pend (it :: stack) = [] /\ pend (its ++ stack) = [n])
    \/ (manual g = false /\ requests evs = [] /\ demands evs = [] /\ pend (it :: stack) = [] /\ pend (its ++ stack) = [request_max])) ->
   moves stack st it st' its evs.

Ltac early_no B :=
  match goal with H : forallb early (?x :: _) = true |- _ => cbn in H; discriminate H | _ => idtac end.

Lemma phase_calm : forall st its stack, f_sub (p_fl st) = true -> f_req (p_fl st) = true -> forallb calm its = true -> forallb calm stack = true -> its ++ stack <> [] -> phase st (its ++ stack).
Proof.
  intros st its stack Sb R A B N. right; right. split; [exact Sb|]. split; [exact R|]. assert (C : forallb calm (its ++ stack) = true) by (rewrite forallb_app, A, B; reflexivity).
  destruct (its ++ stack) as [|e t]; [contradiction|]. cbn [forallb] in C. apply andb_true_iff in C. destruct C as [C1 C2]. exists e, t. split; [reflexivity|]. split; [apply calm_notonsub; exact C1|exact C2].
Qed.
Lemma pend_calm : forall its stack, forallb calm its = true -> forallb calm stack = true -> pend (its ++ stack) = [].
Proof.
  intros its stack A B. assert (C : forallb calm (its ++ stack) = true) by (rewrite forallb_app, A, B; reflexivity). destruct (its ++ stack) as [|e t]; [reflexivity|].
  cbn [forallb] in C. apply andb_true_iff in C. destruct C as [C1 C2]. apply calm_under. exact C1.
Qed.

(** A step of a calm head that only adds calm items and keeps the flags. *)
Lemma mv_calm : forall stack st it st' its evs, under_way1 it = [] -> f_sub (p_fl st') = true -> f_req (p_fl st') = true -> forallb calm its = true -> forallb calm stack = true -> its ++ stack <> [] ->
  requests evs = [] -> demands evs = [] -> moves stack st it st' its evs.
Proof.
  intros stack st it st' its evs U Sb R A B N Q D. constructor.
  - apply phase_calm; assumption.
  - right. split; [exact Q|]. split; [exact D|]. split; [exact U|]. apply pend_calm; assumption.
  - left. split; [exact Q|]. rewrite D, (pend_calm its stack A B). symmetry. exact U.
Qed.
(** A step that puts one uncalm item on top. *)
Lemma mv_top : forall stack st it st' x evs, f_sub (p_fl st') = true -> f_req (p_fl st') = true -> forallb calm stack = true -> no_on_subscribe x = true -> completed evs = false ->
  (requests evs = [] /\ demands evs ++ under_way1 x = under_way1 it \/ (exists n, requests evs = [n] /\ demands evs = [] /\ under_way1 it = [] /\ under_way1 x = [n])
   \/ (manual g = false /\ requests evs = [] /\ demands evs = [] /\ under_way1 it = [] /\ under_way1 x = [request_max])) ->
  moves stack st it st' [x] evs.
Proof.
  intros stack st it st' x evs Sb R B N C M. constructor; [|left; exact C|exact M]. right; right. split; [exact Sb|]. split; [exact R|]. exists x, stack. auto.
Qed.

Lemma cbs_calm : forall s l, forallb calm (map PI (map (fun k => FEmit true (VNotify k s)) l)) = true.
Proof. induction l; [reflexivity|]. cbn [map forallb calm andb]. exact IHl. Qed.

Lemma step_moves : forall st it stack st' its new evs, phase st (it :: stack) -> stack <> [] -> pstep st it = Some (st', its, new, evs) -> new = [] -> moves stack st it st' its evs.
Proof.
  intros st it stack st' its new evs P NE X NW.
  assert (AN : forall l : list pitem, l ++ stack <> []) by (intros l Y; apply app_eq_nil in Y; destruct Y as [_ Y]; contradiction).
  destruct st as [fl ff fc]. destruct P as [(Fs & Fr & Fn & Fc & Ea)|[(Fs & Fr & Fn & Fc & e & t & Es & On & Ca)|(Fs & Fr & e & t & Es & On & Ca)]]; cbn [p_fl] in *.
  - (* before Subscribe *)
    cbn [forallb] in Ea. apply andb_true_iff in Ea. destruct Ea as [Eh Et].
    assert (KE : forall fl' ff' fc' l ev, f_sub fl' = false -> f_req fl' = false -> f_n fl' = 0%Z -> f_closed fl' = false -> forallb early l = true -> under_way1 it = [] -> requests ev = [] -> demands ev = [] ->
              moves stack (mkP fl ff fc) it (mkP fl' ff' fc') l ev).
    { intros fl' ff' fc' l ev A1 A2 A3 A4 A5 A6 A7 A8. assert (EE : forallb early (l ++ stack) = true) by (rewrite forallb_app, A5, Et; reflexivity). constructor.
      - left. cbn [p_fl]. auto.
      - right. rewrite (early_pend (l ++ stack) EE). auto.
      - left. split; [exact A7|]. rewrite A8, (early_pend (l ++ stack) EE). symmetry. exact A6. }
    destruct it as [it|c|].
    + destruct it as [| |c|c|on ev| | | | | | |]; try discriminate Eh; try discriminate X. destruct c; try discriminate Eh; cbn [ProxyModel.pstep fstep p_fl p_first p_complete] in X; rewrite ?Fs in X; cbn [negb andb] in X; try discriminate X.
      * injection X as <- <- <- <-. constructor.
        { right; left. cbn. rewrite Fr, Fn, Fc. repeat split. eexists _, _. split; [reflexivity|]. split; [reflexivity|]. cbn. apply early_calm. exact Et. }
        { left. reflexivity. }
        { left. split; reflexivity. }
      * injection X as <- <- <- <-. apply KE; try assumption; reflexivity.
    + destruct c; cbn [ProxyModel.pstep p_fl] in X; rewrite Fs in X; injection X as <- <- <- <-; apply KE; try assumption; reflexivity.
    + cbn in X. injection X as <- <- <- <-. apply KE; try assumption; reflexivity.
  - (* OnSubscribe *)
    injection Es as <- <-. destruct it as [it|c|]; try discriminate On. destruct it as [| |c|c|on ev| | | | | | |]; try discriminate On.
    + destruct c as [| | | | |rq cn| | |]; try discriminate On. destruct rq, cn; try discriminate On. cbn [ProxyModel.pstep fstep p_fl p_first p_complete] in X. rewrite Fs, Fc in X. cbn in X. injection X as <- <- <- <-.
      constructor; [|left; reflexivity|left; split; reflexivity]. right; left. cbn. repeat split; try assumption. eexists _, _. split; [reflexivity|]. split; [reflexivity|exact Ca].
    + destruct c as [| | | | |rq cn| | |]; try discriminate On. destruct rq, cn; try discriminate On. cbn [ProxyModel.pstep fstep p_fl p_first p_complete] in X. rewrite Fn in X. cbn in X. injection X as <- <- <- <-.
      apply mv_calm; try reflexivity; [exact Fs|exact Ca|apply AN].
  - (* after it *)
    injection Es as <- <-. destruct it as [it|c|].
    + destruct it as [|n|c|c|on ev| | |n|n|n|sg|sg]; try discriminate X.
      * (* FDo *)
        destruct c; try discriminate On; cbn [ProxyModel.pstep fstep p_fl p_first p_complete] in X; rewrite Fs in X; cbn [negb andb] in X; try discriminate X.
        -- destruct (f_closed fl); cbn in X; injection X as <- <- <- <-; apply mv_calm; try reflexivity; try apply AN; assumption.
        -- destruct (f_closed fl); cbn in X; injection X as <- <- <- <-; [apply mv_calm; try reflexivity; try apply AN; assumption|apply mv_top; try reflexivity; try assumption; left; split; reflexivity].
        -- destruct (f_closed fl); cbn in X; injection X as <- <- <- <-; [apply mv_calm; try reflexivity; try apply AN; assumption|apply mv_top; try reflexivity; try assumption; left; split; reflexivity].
        -- destruct (f_closed fl); cbn in X; injection X as <- <- <- <-; [apply mv_calm; try reflexivity; try apply AN; assumption|apply mv_top; try reflexivity; try assumption; left; split; reflexivity].
        -- cbn in X. injection X as <- <- <- <-. apply mv_top; try reflexivity; try assumption. right; left. eexists. repeat split.
        -- cbn in X. injection X as <- <- <- <-. apply mv_calm; try reflexivity; try apply AN; try assumption. destruct (f_can fl), (k_finally g); reflexivity.
        -- cbn in X. injection X as <- <- <- <-. apply mv_calm; try reflexivity; try apply AN; assumption.
      * (* FCommit *)
        destruct c; try discriminate On; try discriminate X; cbn in X; injection X as <- <- <- <-; apply mv_calm; try reflexivity; try apply AN; try assumption; cbn; destruct (k_next g), (k_complete g), (k_error g); reflexivity.
      * (* FEmit *)
        destruct on.
        -- destruct ev; try discriminate On; cbn [ProxyModel.pstep fstep p_fl p_first p_complete map] in X; try (injection X as <- <- <- <-; apply mv_calm; try reflexivity; try apply AN; try assumption; fail); try discriminate On.
           ++ destruct fc; [|destruct ff]; injection X as <- <- <- <-; (constructor; [apply phase_calm; [assumption|assumption|destruct has_in; reflexivity|assumption|apply AN]|left; reflexivity|left; split; [reflexivity|]; rewrite pend_calm; [reflexivity|destruct has_in; reflexivity|assumption]]).
        -- destruct ev; try discriminate On; cbn [ProxyModel.pstep fstep p_fl p_first p_complete map] in X; injection X as <- <- <- <-; apply mv_calm; try reflexivity; try apply AN; assumption.
      * cbn [ProxyModel.pstep fstep p_fl p_first p_complete] in X. injection X as <- <- <- <-. apply mv_calm; try reflexivity; try apply AN; try assumption. destruct (f_n fl =? 0)%Z; reflexivity.
      * cbn [ProxyModel.pstep fstep p_fl p_first p_complete] in X. destruct (k_norequest g) eqn:K1; [|destruct (k_request g) eqn:K2]; cbn in X; injection X as <- <- <- <-.
        -- apply mv_calm; try reflexivity; try apply AN; assumption.
        -- apply mv_calm; try reflexivity; try apply AN; assumption.
        -- apply mv_top; try reflexivity; try assumption. right; right. unfold manual. rewrite K1, K2. repeat split.
      * cbn [ProxyModel.pstep fstep p_fl p_first p_complete] in X. rewrite Fr in X. cbn in X. injection X as <- <- <- <-. apply mv_top; try reflexivity; try assumption. left; split; reflexivity.
      * cbn [ProxyModel.pstep fstep p_fl p_first p_complete] in X. destruct sync; cbn in X; injection X as <- <- <- <-; [|discriminate NW]. apply mv_top; try reflexivity; try assumption. left; split; reflexivity.
      * cbn [ProxyModel.pstep fstep p_fl p_first p_complete] in X. rewrite Fr in X. cbn in X. injection X as <- <- <- <-. apply mv_top; try reflexivity; try assumption. left; split; reflexivity.
      * cbn in X. injection X as <- <- <- <-. apply mv_calm; try reflexivity; try apply AN; try assumption. cbn. destruct (k_finally g); reflexivity.
      * cbn [ProxyModel.pstep fstep p_fl p_first p_complete] in X. injection X as <- <- <- <-. apply mv_calm; try reflexivity; try apply AN; try assumption. apply cbs_calm.
    + destruct c; cbn [ProxyModel.pstep p_fl] in X; injection X as <- <- <- <-; apply mv_calm; try reflexivity; try apply AN; try assumption; rewrite ?Fs; reflexivity.
    + cbn in X. injection X as <- <- <- <-. apply mv_calm; try reflexivity; try apply AN; assumption.
Qed.

(** ** One thread *)
Record J (st : pst) (stack : list pitem) (tr : list pevent) : Prop := {
  j_phase : phase st stack;
  j_bottom : exists t, stack = t ++ [PI FUser];
  j_all : padded (negb (manual g)) (requests tr) (demands tr ++ pend stack);
  j_until : completed tr = true -> padded (negb (manual g)) (requests (until_complete tr)) (demands (until_complete tr)) }.

Lemma phase_call : forall st stack c, phase st (PI FUser :: stack) -> side_call c = true -> phase st (c :: PI FUser :: stack).
Proof.
  intros st stack c [(A & B & C & D & E)|[(A & B & C & D & it & t & E & F & G)|(A & B & it & t & E & F & G)]] H.
  - left. repeat split; try assumption. cbn [forallb] in *. rewrite (call_early c H). exact E.
  - injection E as <- <-. discriminate F.
  - injection E as <- <-. right; right. repeat split; try assumption. exists c, (PI FUser :: stack). split; [reflexivity|]. split; [apply calm_notonsub, call_calm; exact H|exact G].
Qed.
Lemma phase_return : forall st stack, phase st (PI FUser :: stack) -> stack <> [] -> phase st stack /\ pend stack = [].
Proof.
  intros st stack [(A & B & C & D & E)|[(A & B & C & D & it & t & E & F & G)|(A & B & it & t & E & F & G)]] H.
  - cbn [forallb] in E. cbn in E. split; [left; auto|]. apply early_pend; exact E.
  - injection E as <- <-. discriminate F.
  - injection E as <- <-. split; [apply (phase_calm st [] stack); auto|]. apply (pend_calm [] stack); auto.
Qed.
Lemma single : forall {A} (l : list A) x rest y, l ++ x :: rest = [y] -> l = [] /\ rest = [] /\ x = y.
Proof. intros A [|a l] x rest y H; [injection H as -> ->; auto|]. injection H as _ H. destruct l; discriminate H. Qed.
Lemma calm_pend_call : forall c stack, side_call c = true -> pend (c :: stack) = [].
Proof. intros c stack H. apply calm_under, call_calm; exact H. Qed.

Lemma J_step : forall st it stack tr st' its evs, J st (it :: stack) tr -> pstep st it = Some (st', its, [], evs) -> J st' (its ++ stack) (tr ++ evs).
Proof.
  intros st it stack tr st' its evs [P [t B] A U] X.
  assert (NE : stack <> []).
  { intros ->. destruct t as [|x t]; [injection B as ->; discriminate X|]. injection B as _ B. destruct t; discriminate B. }
  destruct (step_moves st it stack st' its [] evs P NE X eq_refl) as [P' C M]. constructor.
  - exact P'.
  - destruct t as [|x t]; [injection B as _ ->; contradiction|]. injection B as _ ->. exists (its ++ t). apply app_assoc.
  - rewrite requests_app, demands_app. destruct M as [(R & D)|[(n & R & D & Q1 & Q2)|(Ma & R & D & Q1 & Q2)]].
    + rewrite R, app_nil_r, <- app_assoc, D. exact A.
    + rewrite R, D, Q2, app_nil_r. rewrite Q1, app_nil_r in A. apply padded_same. exact A.
    + rewrite R, D, Q2, !app_nil_r. rewrite Q1, app_nil_r in A. apply padded_auto; [rewrite Ma; reflexivity|exact A].
  - rewrite completed_app, until_app. destruct (completed tr) eqn:K; [intros _; apply U; reflexivity|]. cbn [orb]. intro K2. destruct C as [C|(C1 & C2 & C3 & C4)]; [congruence|].
    assert (Z : requests (until_complete evs) = [] /\ demands (until_complete evs) = []).
    { clear - C1 C2. induction evs as [|e l IH]; [auto|]. change (e :: l) with ([e] ++ l) in C1, C2. rewrite requests_app in C1. rewrite demands_app in C2. apply app_eq_nil in C1, C2. destruct C1 as [R1 R2], C2 as [D1 D2].
      destruct (IH R2 D2) as [I1 I2]. destruct e; cbn [until_complete]; try (split; reflexivity); (split; [change (requests ([?e] ++ ?l)) with (requests [e] ++ requests l)|]); auto. all: match goal with |- ?f (?e :: ?l) = [] => change (e :: l) with ([e] ++ l) end; rewrite ?requests_app, ?demands_app, ?R1, ?D1, ?I1, ?I2; reflexivity. }
    destruct Z as [Z1 Z2]. rewrite requests_app, demands_app, Z1, Z2, !app_nil_r. rewrite C3, app_nil_r in A. exact A.
Qed.

Lemma reach_J : forall st ths tr, preach st ths tr -> forall stack, ths = [stack] -> J st stack tr.
Proof.
  intros st ths tr R. induction R as [n|st l stk rest tr c R IH Hc|st l stk rest tr R IH Hs|st l it stk rest tr st' its new evs R IH Hs]; intros stack E.
  - destruct n as [|[|n]]; try discriminate E. injection E as <-. constructor.
    + left. repeat split.
    + exists []. reflexivity.
    + constructor.
    + discriminate.
  - apply single in E. destruct E as (-> & -> & <-). destruct (IH _ eq_refl) as [P [t B] A U]. constructor; try assumption.
    + apply phase_call; assumption.
    + exists (c :: t). rewrite B. reflexivity.
    + rewrite (calm_pend_call c _ Hc). exact A.
  - apply single in E. destruct E as (-> & -> & <-). destruct (IH _ eq_refl) as [P [t B] A U]. destruct (phase_return _ _ P Hs) as [P' Q]. constructor; try assumption.
    + destruct t as [|x t]; [injection B as ->; contradiction|]. injection B as _ ->. exists t. reflexivity.
    + rewrite Q. exact A.
  - apply single in E. destruct E as (-> & E & <-). apply app_eq_nil in E. destruct E as [-> ->]. exact (J_step _ _ _ _ _ _ _ (IH _ eq_refl) Hs).
Qed.

(** The first automatic request. *)
Definition opened (st : pst) (stack : list pitem) (ds : list Z) : Prop :=
  (f_sub (p_fl st) = false /\ ds = [])
  \/ (f_sub (p_fl st) = true /\ f_req (p_fl st) = false /\ ds = [] /\ exists it t, stack = it :: PI FHandle :: t /\ onsub it = true)
  \/ (f_sub (p_fl st) = true /\ ds = [] /\ exists t, stack = PI FHandle :: t)
  \/ (f_sub (p_fl st) = true /\ exists ds', ds ++ pend stack = request_max :: ds').

Lemma sub_mono : forall st it st' its new evs, pstep st it = Some (st', its, new, evs) -> it <> PI (FDo FSubscribe) -> f_sub (p_fl st') = f_sub (p_fl st).
Proof.
  intros st it st' its new evs X NS. destruct it as [it|c|].
  - destruct it as [|n|c|c|on ev| | |n|n|n|sg|sg]; try discriminate X.
    + destruct c; [contradiction| | | | | | | |]; cbn [ProxyModel.pstep fstep] in X; repeat match type of X with context [if ?b then _ else _] => destruct b end; try discriminate X; injection X as <- <- <- <-; reflexivity.
    + destruct c; cbn [ProxyModel.pstep fstep] in X; try discriminate X; injection X as <- <- <- <-; reflexivity.
    + destruct on; [destruct ev|]; cbn [ProxyModel.pstep fstep] in X; repeat match type of X with context [if ?b then _ else _] => destruct b end; injection X as <- <- <- <-; reflexivity.
    + cbn [ProxyModel.pstep fstep] in X. injection X as <- <- <- <-; reflexivity.
    + cbn [ProxyModel.pstep fstep] in X. injection X as <- <- <- <-; reflexivity.
    + cbn [ProxyModel.pstep fstep] in X. injection X as <- <- <- <-; reflexivity.
    + cbn [ProxyModel.pstep fstep] in X. destruct sync; injection X as <- <- <- <-; reflexivity.
    + cbn [ProxyModel.pstep fstep] in X. destruct (f_req (p_fl st)); [|discriminate X]. injection X as <- <- <- <-; reflexivity.
    + cbn [ProxyModel.pstep fstep] in X. injection X as <- <- <- <-; reflexivity.
    + cbn [ProxyModel.pstep fstep] in X. injection X as <- <- <- <-; reflexivity.
  - destruct c; cbn [ProxyModel.pstep] in X; injection X as <- <- <- <-; reflexivity.
  - cbn in X. injection X as <- <- <- <-. reflexivity.
Qed.

Lemma opened_step : forall st it stack tr st' its evs, manual g = false -> J st (it :: stack) tr -> opened st (it :: stack) (demands tr) ->
  pstep st it = Some (st', its, [], evs) -> opened st' (its ++ stack) (demands (tr ++ evs)).
Proof.
  intros st it stack tr st' its evs Ma [P [t B] A U] O X.
  assert (NE : stack <> []).
  { intros ->. destruct t as [|x t]; [injection B as ->; discriminate X|]. injection B as _ B. destruct t; discriminate B. }
  destruct (step_moves st it stack st' its [] evs P NE X eq_refl) as [P' C M]. rewrite demands_app.
  destruct O as [(Sb & D)|[(Sb & Rq & D & e & t' & E & On)|[(Sb & D & t' & E)|(Sb & ds' & D)]]].
  - destruct P as [(_ & _ & _ & _ & Ea)|[(A1 & _)|(A1 & _)]]; try congruence. cbn [forallb] in Ea. apply andb_true_iff in Ea. destruct Ea as [Ea _].
    assert (W : it = PI (FDo FSubscribe) \/ it <> PI (FDo FSubscribe)).
    { destruct it as [i| |]; try (right; discriminate). destruct i as [| |c| | | | | | | | |]; try (right; discriminate). destruct c; (left; reflexivity) || (right; discriminate). }
    destruct W as [->|W].
    + right; left. cbn [ProxyModel.pstep fstep] in X. rewrite Sb in X. injection X as <- <- <-. rewrite D. split; [reflexivity|]. split; [destruct P' as [(P1 & _)|[(_ & P2 & _)|(_ & P2 & e & t' & E & On & _)]]; [discriminate P1|exact P2|injection E as <- <-; discriminate On]|]. split; [reflexivity|]. eexists _, _. split; reflexivity.
    + left. rewrite (sub_mono _ _ _ _ _ _ X W). split; [exact Sb|]. rewrite D. destruct M as [(_ & D')|[(n & R & D' & _)|(_ & _ & D' & _)]]; [|exact D'|exact D'].
      assert (Z : pend (it :: stack) = []) by (cbn [pend]; destruct it as [i| |]; try reflexivity; destruct i; reflexivity || discriminate Ea). rewrite Z in D'. apply app_eq_nil in D'. exact (proj1 D').
  - injection E as <- ->. destruct it as [it|c|]; try discriminate On. destruct it as [| |c|c|on ev| | | | | | |]; try discriminate On.
    + destruct c as [| | | | |rq cn| | |]; try discriminate On. destruct rq, cn; try discriminate On. right; left.
      destruct P as [(P1 & _)|[(_ & _ & P3 & P4 & _)|(_ & P2 & _)]]; [congruence| |congruence]. cbn [ProxyModel.pstep fstep] in X. rewrite Sb, P4 in X. cbn in X. injection X as <- <- <-. cbn [p_fl]. rewrite D. repeat split; try assumption. eexists _, _. split; reflexivity.
    + destruct c as [| | | | |rq cn| | |]; try discriminate On. destruct rq, cn; try discriminate On. right; right; left.
      destruct P as [(P1 & _)|[(_ & _ & P3 & P4 & _)|(_ & P2 & _)]]; [congruence| |congruence]. cbn [ProxyModel.pstep fstep] in X. rewrite P3 in X. cbn in X. injection X as <- <- <-. cbn [p_fl f_sub]. rewrite D. repeat split; try assumption. eexists. reflexivity.
  - injection E as -> <-. right; right; right. unfold manual in Ma. apply orb_false_iff in Ma. destruct Ma as [K1 K2]. cbn [ProxyModel.pstep fstep] in X. rewrite K1, K2 in X. injection X as <- <- <-. split; [exact Sb|]. rewrite D. eexists. reflexivity.
  - right; right; right. assert (W : it <> PI (FDo FSubscribe)).
    { intros ->. cbn [ProxyModel.pstep fstep] in X. rewrite Sb in X. discriminate X. }
    split; [rewrite (sub_mono _ _ _ _ _ _ X W); exact Sb|]. destruct M as [(_ & D')|[(n & R & D' & Q1 & Q2)|(_ & R & D' & Q1 & Q2)]].
    + rewrite <- app_assoc, D'. exists ds'. exact D.
    + rewrite D', Q2, app_nil_r. rewrite Q1, app_nil_r in D. rewrite D. eexists. reflexivity.
    + rewrite D', Q2, app_nil_r. rewrite Q1, app_nil_r in D. rewrite D. eexists. reflexivity.
Qed.

Lemma reach_opened : manual g = false -> forall st ths tr, preach st ths tr -> forall stack, ths = [stack] -> opened st stack (demands tr).
Proof.
  intros Ma st ths tr R. induction R as [n|st l stk rest tr c R IH Hc|st l stk rest tr R IH Hs|st l it stk rest tr st' its new evs R IH Hs]; intros stack E.
  - left. split; reflexivity.
  - apply single in E. destruct E as (-> & -> & <-). destruct (IH _ eq_refl) as [O|[(_ & _ & _ & e & t & E & On)|[(_ & _ & t & E)|(Sb & ds & D)]]].
    + left. exact O.
    + injection E as <- ->. discriminate On.
    + discriminate E.
    + right; right; right. split; [exact Sb|]. rewrite (calm_pend_call c _ Hc). exists ds. exact D.
  - apply single in E. destruct E as (-> & -> & <-). destruct (reach_J _ _ _ R _ eq_refl) as [P _ _ _]. destruct (phase_return _ _ P Hs) as [_ Q].
    destruct (IH _ eq_refl) as [O|[(_ & _ & _ & e & t & E & On)|[(_ & _ & t & E)|(Sb & ds & D)]]].
    + left. exact O.
    + injection E as <- ->. discriminate On.
    + discriminate E.
    + right; right; right. split; [exact Sb|]. rewrite Q. exists ds. exact D.
  - apply single in E. destruct E as (-> & E & <-). apply app_eq_nil in E. destruct E as [-> ->]. exact (opened_step _ _ _ _ _ _ _ Ma (reach_J _ _ _ R _ eq_refl) (IH _ eq_refl) Hs).
Qed.

(** ** Any number of threads, once the source is there *)
Lemma step_multi : forall st it st' its new evs, manual g = true -> f_sub (p_fl st) = true -> f_req (p_fl st) = true -> no_on_subscribe it = true -> (forall rq cn, it <> PI (FCommit (FOnSubscribe rq cn))) ->
  pstep st it = Some (st', its, new, evs) ->
  f_sub (p_fl st') = true /\ f_req (p_fl st') = true /\ forallb no_on_subscribe its = true /\ forallb (forallb no_on_subscribe) new = true
  /\ Permutation (requests evs ++ under_way1 it) (demands evs ++ flat_map under_way1 its ++ under_way new).
Proof.
  intros st it st' its new evs Ma Sb Rq On NO X. destruct st as [fl ff fc]. cbn [p_fl] in *. destruct it as [it|c|].
  - destruct it as [|n|c|c|on ev| | |n|n|n|sg|sg]; try discriminate X.
    + destruct c; try discriminate On; cbn [ProxyModel.pstep fstep p_fl p_first p_complete] in X; rewrite Sb in X; cbn [negb andb] in X; try discriminate X;
      repeat match type of X with context [if ?b then _ else _] => destruct b end; cbn in X; injection X as <- <- <- <-; cbn [p_fl f_sub f_req set_closed set_cbs]; repeat split; try assumption; apply Permutation_refl || (destruct (f_can fl), (k_finally g); reflexivity || apply Permutation_refl).
    + destruct c; try discriminate On; cbn [ProxyModel.pstep fstep p_fl p_first p_complete] in X; try discriminate X; cbn in X; injection X as <- <- <- <-; cbn [p_fl f_sub f_req set_closed set_n]; repeat split; try assumption; try (destruct (k_next g), (k_complete g), (k_error g); apply Permutation_refl || reflexivity).
    + destruct on.
      * destruct ev; try discriminate On; cbn [ProxyModel.pstep fstep p_fl p_first p_complete map] in X;
        repeat match type of X with context [if ?b then _ else _] => destruct b end; injection X as <- <- <- <-; repeat split; try assumption; apply Permutation_refl.
      * destruct ev; try discriminate On; cbn [ProxyModel.pstep fstep p_fl p_first p_complete map] in X; injection X as <- <- <- <-; repeat split; try assumption; apply Permutation_refl.
    + cbn [ProxyModel.pstep fstep p_fl p_first p_complete] in X. destruct (f_n fl =? 0)%Z; injection X as <- <- <- <-; repeat split; try assumption; apply Permutation_refl.
    + cbn [ProxyModel.pstep fstep p_fl p_first p_complete] in X. unfold manual in Ma. destruct (k_norequest g); [|destruct (k_request g); [|discriminate Ma]]; injection X as <- <- <- <-; repeat split; try assumption; apply Permutation_refl.
    + cbn [ProxyModel.pstep fstep p_fl p_first p_complete] in X. rewrite Rq in X. injection X as <- <- <- <-; repeat split; try assumption; apply Permutation_refl.
    + cbn [ProxyModel.pstep fstep p_fl p_first p_complete] in X. destruct sync; injection X as <- <- <- <-; repeat split; try assumption; apply Permutation_refl.
    + cbn [ProxyModel.pstep fstep p_fl p_first p_complete] in X. rewrite Rq in X. injection X as <- <- <- <-; repeat split; try assumption; apply Permutation_refl.
    + cbn [ProxyModel.pstep fstep p_fl p_first p_complete] in X. cbn in X. injection X as <- <- <- <-; cbn [p_fl f_sub f_req set_signal]; repeat split; try assumption; destruct (k_finally g); reflexivity || apply Permutation_refl.
    + cbn [ProxyModel.pstep fstep p_fl p_first p_complete] in X. injection X as <- <- <- <-. cbn [p_fl]. split; [exact Sb|]. split; [exact Rq|]. clear.
      induction (f_cbs fl) as [|k l IH]; [repeat split; apply Permutation_refl|]. destruct IH as (I1 & I2 & I3). cbn [map forallb no_on_subscribe andb flat_map under_way1 app]. auto.
  - destruct c; cbn [ProxyModel.pstep p_fl] in X; injection X as <- <- <- <-; cbn [p_fl]; rewrite ?Sb; repeat split; try assumption; apply Permutation_refl.
  - cbn in X. injection X as <- <- <- <-. cbn [p_fl]. repeat split; try assumption; apply Permutation_refl.
Qed.

Lemma under_way_app : forall a b, under_way (a ++ b) = under_way a ++ under_way b.
Proof. intros. apply flat_map_app. Qed.
Lemma call_notonsub : forall c, side_call c = true -> no_on_subscribe c = true.
Proof. intros c H. apply calm_notonsub, call_calm; exact H. Qed.

Lemma from_multi : forall st0 ths0, manual g = true -> f_sub (p_fl st0) = true -> f_req (p_fl st0) = true -> forallb (forallb no_on_subscribe) ths0 = true ->
  forall st ths tr, pfrom st0 ths0 st ths tr ->
  f_sub (p_fl st) = true /\ f_req (p_fl st) = true /\ forallb (forallb no_on_subscribe) ths = true /\ Permutation (requests tr ++ under_way ths0) (demands tr ++ under_way ths).
Proof.
  intros st0 ths0 Ma Sb Rq On st ths tr F. induction F as [|st l stack rest tr c F IH Hc|st l stack rest tr F IH Hs|st l it stack rest tr st' its new evs F IH Hs].
  - repeat split; try assumption. apply Permutation_refl.
  - destruct IH as (I1 & I2 & I3 & I4). split; [exact I1|]. split; [exact I2|]. rewrite forallb_app in *. cbn [forallb] in *. rewrite (call_notonsub c Hc). split; [exact I3|].
    rewrite under_way_app in *. cbn [under_way flat_map] in *. rewrite (calm_under c (call_calm c Hc)). exact I4.
  - destruct IH as (I1 & I2 & I3 & I4). split; [exact I1|]. split; [exact I2|]. rewrite forallb_app in *. cbn [forallb no_on_subscribe andb] in *. split; [exact I3|].
    rewrite under_way_app in *. exact I4.
  - destruct IH as (I1 & I2 & I3 & I4). rewrite forallb_app in I3. cbn [forallb] in I3. rewrite !andb_true_iff in I3. destruct I3 as (N1 & (N2 & N3) & N4).
    assert (NO : forall rq cn, it <> PI (FCommit (FOnSubscribe rq cn))) by (intros rq cn ->; discriminate N2).
    destruct (step_multi st it st' its new evs Ma I1 I2 N2 NO Hs) as (S1 & S2 & S3 & S4 & S5). split; [exact S1|]. split; [exact S2|]. split.
    + rewrite !forallb_app. cbn [forallb]. rewrite !forallb_app. rewrite N1, S3, N3, N4, S4. reflexivity.
    + rewrite requests_app, demands_app, !under_way_app in *. change (under_way ((its ++ stack) :: rest ++ new)) with (flat_map under_way1 (its ++ stack) ++ under_way (rest ++ new)).
      change (under_way ((it :: stack) :: rest)) with (flat_map under_way1 (it :: stack) ++ under_way rest) in I4. rewrite under_way_app, flat_map_app. cbn [flat_map] in I4.
      set (a := requests tr) in *. set (b := requests evs) in *. set (c := under_way ths0) in *. set (d := demands tr) in *. set (e := demands evs) in *. set (h := under_way1 it) in *.
      set (i := flat_map under_way1 its) in *. set (j := flat_map under_way1 stack) in *. set (k := under_way l) in *. set (m := under_way rest) in *. set (q := under_way new) in *.
      rewrite (Permutation_count_occ Z.eq_dec) in *. intro x. specialize (I4 x). specialize (S5 x). rewrite !count_occ_app in *. lia.
Qed.
End Total.
