(** Proofs about the demand a responder passes on. *)
From Coq Require Import List NArith ZArith Lia Bool Permutation.
From Verif Require Import Base FramesModel MonoModel MonoProofs FluxModel FluxSpec FluxDemandSpec FluxDemandProofs FluxAskProofs ProxyModel ResponderModel ResponderSpec ResponderAskSpec.
Import ListNotations.
Open Scope Z_scope.

Definition here (b : bool) : Z := if b then 1 else 0.
Definition wr (z : Z) (it : ritem) : Z := match it with RO (FDo (FRequest n)) => here (n =? z) | _ => 0 end.
Definition ws (it : ritem) : Z := match it with RO (FDo FSubscribe) => 1 | _ => 0 end.
Definition wa (it : ritem) : Z := match it with RAfter => 1 | _ => 0 end.
Definition er (z : Z) (e : revent) : Z := match e with ROV (VCall (FRequest n)) => here (n =? z) | _ => 0 end.
Definition en (z : Z) (e : revent) : Z := match e with RNet (RNRequest n) => here (Z.of_N n =? z) | _ => 0 end.
Definition es (e : revent) : Z := match e with ROV (VCall FSubscribe) => 1 | _ => 0 end.
Definition remits (it : ritem) : Prop := match it with RO (FEmit _ (VCall _)) => False | _ => True end.

Lemma tsplit : forall A (w : A -> Z) l s r, total w (concat (l ++ s :: r)) = total w (concat l) + (total w s + total w (concat r)).
Proof. intros A w l s r. rewrite concat_app, total_app. cbn [concat]. rewrite total_app. reflexivity. Qed.

Section Ask.
Context (sync : bool) (gin : fcfg) (sid initial : N).

Record bal (st : rst) (l : list ritem) (tr : list revent) (k : Z) : Prop := {
  b_req : forall z, total (er z) tr + total (wr z) l = k * here (Z.of_N initial =? z) + total (en z) tr;
  b_sub : total es tr + total ws l = k + total wa l;
  b_one : total es tr = here (f_sub (r_out st));
  b_k : 0 <= k }.

Lemma map_zero : forall (w : ritem -> Z) f (l : list (fitem pay bytes)), (forall x, w (f x) = 0) -> total w (map f l) = 0.
Proof. intros w f l Z0. apply total_zero. intros a I. apply in_map_iff in I as (x & <- & _). apply Z0. Qed.
Lemma mapmap_zero : forall (w : ritem -> Z) f (l : list (list (fitem pay bytes))), (forall x, w (f x) = 0) -> total w (concat (map (map f) l)) = 0.
Proof. intros w f l Z0. apply total_zero. intros a I. apply in_concat in I as (x & Hx & I). apply in_map_iff in Hx as (y & <- & _). apply in_map_iff in I as (v & <- & _). apply Z0. Qed.
Lemma emap_zero : forall (w : revent -> Z) f (l : list (fevent pay bytes)), (forall x, w (f x) = 0) -> total w (map f l) = 0.
Proof. intros w f l Z0. apply total_zero. intros a I. apply in_map_iff in I as (x & <- & _). apply Z0. Qed.

Definition plain (it : fitem pay bytes) : Prop := match it with FDo _ | FEmit _ (VCall _) => False | _ => True end.
Definition fresh (it : fitem pay bytes) : bool := match it with FDo FSubscribe => true | _ => false end.
Lemma fstep_facts : forall g st it fl its new evs, fstep sync g st it = Some (fl, its, new, evs) -> remits (RO it) ->
  Forall plain (its ++ concat new) /\
  (match it with FDo c => evs = [VCall c] | _ => Forall (fun e => match e with VCall _ => False | _ => True end) evs end) /\
  f_sub fl = f_sub st || fresh it /\ (fresh it = true -> f_sub st = false).
Proof.
  intros g st it fl its new evs S Em. step_cases S; cbn [f_sub fresh orb set_closed set_n set_signal set_cbs remits concat] in *; try contradiction;
  rewrite ?app_nil_r, ?orb_false_r; (split; [|split; [first [reflexivity|repeat constructor]|split; [reflexivity|intro Q; first [discriminate Q|reflexivity]]]]); try (repeat constructor; fail).
  all: try (apply Forall_forall; intros a I; apply in_map_iff in I as (x & <- & _); exact Logic.I).
  all: repeat match goal with |- context [if ?b then _ else _] => destruct b end; repeat constructor.
Qed.
Lemma plain_zero : forall (w : ritem -> Z) (l : list (fitem pay bytes)), (forall x, plain x -> w (RO x) = 0) -> Forall plain l -> total w (map RO l) = 0.
Proof. intros w l Z0 F. apply total_zero. intros a I. apply in_map_iff in I as (x & <- & I). rewrite Forall_forall in F. apply Z0, F, I. Qed.
Lemma calls_zero : forall (w : revent -> Z) (l : list (fevent pay bytes)), (forall x, (match x with VCall _ => False | _ => True end) -> w (ROV x) = 0) ->
  Forall (fun e => match e with VCall _ => False | _ => True end) l -> total w (map ROV l) = 0.
Proof. intros w l Z0 F. apply total_zero. intros a I. apply in_map_iff in I as (x & <- & I). rewrite Forall_forall in F. apply Z0, F, I. Qed.
Lemma plain_wr : forall z x, plain x -> wr z (RO x) = 0. Proof. intros z [| |[]| | | | | | | | |] P; try contradiction; reflexivity. Qed.
Lemma plain_ws : forall x, plain x -> ws (RO x) = 0. Proof. intros [| |[]| | | | | | | | |] P; try contradiction; reflexivity. Qed.
Lemma call_er : forall z x, (match x with VCall _ => False | _ => True end) -> er z (ROV x) = 0. Proof. intros z [[]| | | | | | | |] P; try contradiction; reflexivity. Qed.
Lemma call_es : forall x, (match x with VCall _ => False | _ => True end) -> es (ROV x) = 0. Proof. intros [[]| | | | | | | |] P; try contradiction; reflexivity. Qed.

(** A step of the handler's flux. *)
Lemma out_step : forall st it fl its new evs l tr k, fstep sync resp_cfg (r_out st) it = Some (fl, its, new, evs) -> remits (RO it) ->
  bal st (RO it :: l) tr k -> bal (mkR fl (r_in st) (r_sub st)) (map RO its ++ l ++ concat (map (map RO) new)) (tr ++ map ROV evs) k.
Proof.
  intros st it fl its new evs l tr k S Em [B1 B2 B3 B4]. destruct (fstep_facts _ _ _ _ _ _ _ S Em) as (F & V & Fs & Fr). rewrite <- concat_map. apply Forall_app in F as [F1 F2].
  assert (En : forall z, total (en z) (map ROV evs) = 0) by (intro z; apply emap_zero; reflexivity).
  assert (Wa : total wa (map RO its) = 0 /\ total wa (map RO (concat new)) = 0) by (split; apply map_zero; reflexivity).
  assert (Wr : forall z, total (wr z) (map RO its) = 0 /\ total (wr z) (map RO (concat new)) = 0) by (intro z; split; (apply plain_zero; [apply plain_wr|assumption])).
  assert (Ws : total ws (map RO its) = 0 /\ total ws (map RO (concat new)) = 0) by (split; (apply plain_zero; [apply plain_ws|assumption])).
  assert (Er : forall z, total (er z) (map ROV evs) = wr z (RO it)).
  { intro z. destruct it as [| |c| | | | | | | | |]; try (rewrite (calls_zero _ _ (call_er z) V); reflexivity). rewrite V. destruct c; cbn; lia. }
  assert (Es : total es (map ROV evs) = ws (RO it)).
  { destruct it as [| |c| | | | | | | | |]; try (rewrite (calls_zero _ _ call_es V); reflexivity). rewrite V. destruct c; reflexivity. }
  constructor.
  - intro z. specialize (B1 z). destruct (Wr z). rewrite !total_app, ?total_cons in *. rewrite En, Er. lia.
  - rewrite !total_app, ?total_cons in *. cbn [wa] in B2. lia.
  - rewrite !total_app, Es, B3. cbn [r_out]. rewrite Fs. destruct it as [| |c| | | | | | | | |]; cbn [ws fresh] in *; rewrite ?orb_false_r; try lia. destruct c; rewrite ?orb_false_r; try lia. rewrite (Fr eq_refl). reflexivity.
  - exact B4.
Qed.
(** Steps that leave it alone. *)
Lemma other_step : forall st st' it its new evs l tr k, bal st (it :: l) tr k -> f_sub (r_out st') = f_sub (r_out st) -> (forall z, wr z it = 0) -> ws it = 0 -> wa it = 0 ->
  (forall z, total (wr z) (its ++ new) = total (en z) evs) -> total ws (its ++ new) = 0 -> total wa (its ++ new) = 0 -> (forall z, total (er z) evs = 0) -> total es evs = 0 ->
  bal st' (its ++ l ++ new) (tr ++ evs) k.
Proof.
  intros st st' it its new evs l tr k [B1 B2 B3 B4] Fs W1 W2 W3 N1 N2 N3 E1 E2. constructor.
  - intro z. specialize (B1 z). specialize (W1 z). specialize (N1 z). specialize (E1 z). rewrite !total_app, ?total_cons in *. lia.
  - rewrite !total_app, ?total_cons in *. lia.
  - rewrite !total_app, E2, Fs. lia.
  - exact B4.
Qed.
Lemma remits_out : forall l, Forall plain l -> Forall remits (map RO l).
Proof. intros l F. apply Forall_forall. intros a I. apply in_map_iff in I as (x & <- & I). rewrite Forall_forall in F. specialize (F x I). destruct x as [| | | |on []| | | | | | |]; try exact Logic.I. contradiction. Qed.
Lemma remits_in : forall l, Forall remits (map RI l).
Proof. intros l. apply Forall_forall. intros a I. apply in_map_iff in I as (x & <- & I). exact Logic.I. Qed.

Lemma ask_step : forall st it st' its new evs l tr k, rstep sync gin sid initial st it = Some (st', its, new, evs) -> remits it -> bal st (it :: l) tr k ->
  (exists k', bal st' (its ++ l ++ concat new) (tr ++ evs) k') /\ Forall remits (its ++ concat new).
Proof.
  assert (Out : forall st it st' its new evs l tr k, remits (RO it) -> bal st (RO it :: l) tr k ->
    match fstep sync resp_cfg (r_out st) it with Some (fl, its, new, evs) => Some (mkR fl (r_in st) (r_sub st), map RO its, map (map RO) new, map ROV evs) | None => None end = Some (st', its, new, evs) ->
    (exists k', bal st' (its ++ l ++ concat new) (tr ++ evs) k') /\ Forall remits (its ++ concat new)).
  { intros st it st' its new evs l tr k Em B S. destruct (fstep sync resp_cfg (r_out st) it) as [[[[fl i1] n1] e1]|] eqn:F; [|discriminate S]. injection S as <- <- <- <-. split; [exists k; exact (out_step _ _ _ _ _ _ _ _ _ F Em B)|].
    destruct (fstep_facts _ _ _ _ _ _ _ F Em) as (P & _). rewrite <- concat_map, <- map_app. apply remits_out, P. }
  assert (In : forall st it st' its new evs l tr k, bal st (RI it :: l) tr k ->
    match fstep sync gin (r_in st) it with Some (fl, its, new, evs) => Some (mkR (r_out st) fl (r_sub st), map RI its, map (map RI) new, map RIV evs) | None => None end = Some (st', its, new, evs) ->
    (exists k', bal st' (its ++ l ++ concat new) (tr ++ evs) k') /\ Forall remits (its ++ concat new)).
  { intros st it st' its new evs l tr k B S. destruct (fstep sync gin (r_in st) it) as [[[[fl i1] n1] e1]|] eqn:F; [|discriminate S]. injection S as <- <- <- <-. rewrite <- concat_map. split; [|rewrite <- map_app; apply remits_in].
    exists k. eapply other_step; [exact B|reflexivity|reflexivity|reflexivity|reflexivity|..]; rewrite <- ?map_app; intros; rewrite ?(map_zero _ RI) by reflexivity; try (symmetry; apply emap_zero; reflexivity); try reflexivity; apply emap_zero; reflexivity. }
  intros st it st' its new evs l tr k S Em B. destruct it as [it|it| | |c].
  - destruct it as [| | | |on e| | | | | | |]; try (exact (Out _ _ _ _ _ _ _ _ _ Em B S)). destruct on; [|exact (Out _ _ _ _ _ _ _ _ _ Em B S)]. cbn [rstep] in S.
    destruct (frame_of sid e) as [f|] eqn:Ef; [|exact (Out _ _ _ _ _ _ _ _ _ Em B S)]. injection S as <- <- <- <-. split; [|constructor]. exists k.
    eapply (other_step _ _ _ []); [exact B|try reflexivity..]; intros; cbn; destruct e; try contradiction; reflexivity.
  - destruct it as [| |c| |on e| | | | | | |]; try (exact (In _ _ _ _ _ _ _ _ _ B S)).
    + destruct c; try (exact (In _ _ _ _ _ _ _ _ _ B S)). cbn [rstep] in S. destruct (fstep sync gin (r_in st) (FDo FSubscribe)) as [[[[fl i1] n1] e1]|]; [|discriminate S]. injection S as <- <- <- <-.
      split; [|repeat constructor]. exists k. eapply (other_step _ _ _ [_; _] []); [exact B|reflexivity|reflexivity|reflexivity|reflexivity|..]; intros; try (symmetry; apply emap_zero; reflexivity); try reflexivity; apply emap_zero; reflexivity.
    + destruct on; [|exact (In _ _ _ _ _ _ _ _ _ B S)]. destruct e; try (exact (In _ _ _ _ _ _ _ _ _ B S)); cbn [rstep] in S; injection S as <- <- <- <-; (split; [|constructor]; exists k; eapply (other_step _ _ _ []); [exact B|reflexivity..]).
  - injection S as <- <- <- <-. destruct B as [B1 B2 B3 B4]. split; [|repeat constructor]. exists k. constructor; [intro z; specialize (B1 z)| | |exact B4]; rewrite ?total_app, ?total_cons, ?total_nil in *; cbn [concat wr ws wa r_out] in *; rewrite ?total_nil; lia.
  - injection S as <- <- <- <-. destruct B as [B1 B2 B3 B4]. split; [|repeat constructor]. exists (k + 1). constructor; [intro z; specialize (B1 z)| | |lia]; rewrite ?total_app, ?total_cons, ?total_nil in *; cbn [concat wr ws wa r_out] in *; rewrite ?total_nil; lia.
  - destruct c; cbn [rstep] in S; [destruct (r_sub st)|destruct (f_sub (r_in st))..]; try discriminate S; injection S as <- <- <- <-; (split; [|repeat constructor]); exists k; (eapply (other_step _ _ _ [_] []); [exact B|reflexivity|reflexivity|reflexivity|reflexivity|..]; intros; cbn; lia).
Qed.

(** What follows a subscription. *)
Fixpoint paired (s : list ritem) : Prop :=
  match s with [] => True | RO (FDo FSubscribe) :: s' => (match s' with RAfter :: _ => True | _ => False end) /\ paired s' | _ :: s' => paired s' end.
Lemma paired_tail : forall it s, paired (it :: s) -> paired s.
Proof. intros [[| |[]| | | | | | | | |]| | | |] l P; try exact P. exact (proj2 P). Qed.
Lemma paired_cons : forall it s, ws it = 0 -> paired s -> paired (it :: s).
Proof. intros [[| |[]| | | | | | | | |]| | | |] l W P; try exact P. discriminate W. Qed.
Lemma paired_app : forall l s, (forall a, In a l -> ws a = 0) -> paired s -> paired (l ++ s).
Proof. intros l s W P. induction l as [|a l IH]; [exact P|]. apply paired_cons; [apply W; left; reflexivity|]. apply IH. intros b I. apply W. right. exact I. Qed.
Lemma paired_le : forall s, paired s -> total ws s <= total wa s /\ (forall a s', s = a :: s' -> wa a = 1 -> total ws s + 1 <= total wa s).
Proof.
  intro s0. induction s0 as [|a s IH]; intro P; [split; [reflexivity|intros; discriminate]|]. destruct (IH (paired_tail _ _ P)) as [L1 L2]. rewrite !total_cons. split.
  - destruct a as [[| |[]| | | | | | | | |]| | | |]; cbn [ws wa]; try lia. destruct P as [P _]. destruct s as [|[| | | |] s]; try contradiction. specialize (L2 _ _ eq_refl eq_refl). lia.
  - intros b s' Q W. injection Q as <- <-. destruct a; try discriminate W. cbn [ws wa]. lia.
Qed.
Lemma step_paired : forall st it st' its new evs s, rstep sync gin sid initial st it = Some (st', its, new, evs) -> remits it -> paired (it :: s) ->
  paired (its ++ s) /\ Forall paired new.
Proof.
  assert (Z1 : forall l, (forall a, In a (map RI l) -> ws a = 0)) by (intros l a I; apply in_map_iff in I as (x & <- & _); reflexivity).
  assert (Z2 : forall l, Forall plain l -> (forall a, In a (map RO l) -> ws a = 0)) by (intros l F a I; apply in_map_iff in I as (x & <- & I); rewrite Forall_forall in F; apply plain_ws, F, I).
  assert (Out : forall st it st' its new evs s, remits (RO it) -> paired s ->
    match fstep sync resp_cfg (r_out st) it with Some (fl, its, new, evs) => Some (mkR fl (r_in st) (r_sub st), map RO its, map (map RO) new, map ROV evs) | None => None end = Some (st', its, new, evs) ->
    paired (its ++ s) /\ Forall paired new).
  { intros st it st' its new evs s Em P S. destruct (fstep sync resp_cfg (r_out st) it) as [[[[fl i1] n1] e1]|] eqn:F; [|discriminate S]. injection S as <- <- <- <-.
    destruct (fstep_facts _ _ _ _ _ _ _ F Em) as (Q & _). apply Forall_app in Q as [Q1 Q2]. split; [apply paired_app; [apply Z2; exact Q1|exact P]|].
    apply Forall_forall. intros x I. apply in_map_iff in I as (y & <- & I). rewrite <- (app_nil_r (map RO y)). apply paired_app; [|exact Logic.I]. apply Z2. rewrite Forall_forall in *. intros b Ib. apply Q2, in_concat. eauto. }
  assert (In : forall st it st' its new evs s, paired s ->
    match fstep sync gin (r_in st) it with Some (fl, its, new, evs) => Some (mkR (r_out st) fl (r_sub st), map RI its, map (map RI) new, map RIV evs) | None => None end = Some (st', its, new, evs) ->
    paired (its ++ s) /\ Forall paired new).
  { intros st it st' its new evs s P S. destruct (fstep sync gin (r_in st) it) as [[[[fl i1] n1] e1]|] eqn:F; [|discriminate S]. injection S as <- <- <- <-.
    split; [apply paired_app; [apply Z1|exact P]|]. apply Forall_forall. intros x I. apply in_map_iff in I as (y & <- & I). rewrite <- (app_nil_r (map RI y)). apply paired_app; [apply Z1|exact Logic.I]. }
  intros st it st' its new evs s S Em P. apply paired_tail in P. destruct it as [it|it| | |c].
  - destruct it as [| | | |on e| | | | | | |]; try (exact (Out st _ _ _ _ _ _ Em P S)). destruct on; [|exact (Out st _ _ _ _ _ _ Em P S)]. cbn [rstep] in S.
    destruct (frame_of sid e) as [f|] eqn:Ef; [|exact (Out st _ _ _ _ _ _ Em P S)]. injection S as <- <- <- <-. split; [exact P|constructor].
  - assert (G := In st it st' its new evs s P). destruct it as [| |c| |on e| | | | | | |]; try (exact (G S)).
    + destruct c; try (exact (G S)). cbn [rstep] in S. destruct (fstep sync gin (r_in st) (FDo FSubscribe)) as [[[[fl i1] n1] e1]|]; [|discriminate S]. injection S as <- <- <- <-. split; [exact P|constructor].
    + destruct on; [|exact (G S)]. destruct e; try (exact (G S)); cbn [rstep] in S; injection S as <- <- <- <-; (split; [exact P|constructor]).
  - injection S as <- <- <- <-. split; [|constructor]. cbn. auto.
  - injection S as <- <- <- <-. split; [exact P|constructor].
  - destruct c; cbn [rstep] in S; [destruct (r_sub st)|destruct (f_sub (r_in st))..]; try discriminate S; injection S as <- <- <- <-; (split; [exact P|constructor]).
Qed.

Lemma reach_bal : forall st ths tr, ask_reach sync gin sid initial st ths tr -> (exists k, bal st (concat ths) tr k) /\ Forall remits (concat ths) /\ Forall paired ths.
Proof.
  intros st ths tr R. induction R as [n|st l u stack r tr c0 R [[k B] [F P]] U C Ho|st l u stack r tr R [[k B] [F P]] U NE|st l it stack r tr st' its new evs R [[k B] [F P]] S].
  - assert (Q : forall a, In a (concat (repeat [RO (FUser : fitem pay bytes)] n)) -> a = RO FUser) by (intros a I; apply in_concat in I as (x & Hx & I); apply repeat_spec in Hx; subst x; destruct I as [<-|[]]; reflexivity).
    split; [exists 0|split; [apply Forall_forall; intros a I; rewrite (Q a I); exact Logic.I|apply Forall_forall; intros a I; apply repeat_spec in I as ->; exact Logic.I]].
    assert (W : forall w : ritem -> Z, w (RO FUser) = 0 -> total w (concat (repeat [RO (FUser : fitem pay bytes)] n)) = 0) by (intros w Hw; apply total_zero; intros a I; rewrite (Q a I); exact Hw).
    constructor; [intro z; rewrite W by reflexivity; reflexivity|rewrite !W by reflexivity; reflexivity|reflexivity|lia].
  - assert (Z0 : (forall z, wr z c0 = 0) /\ ws c0 = 0 /\ wa c0 = 0) by (destruct c0 as [[]|[]| | |]; try destruct c; try discriminate C; try discriminate Ho; repeat split).
    destruct Z0 as (Z1 & Z2 & Z3). split; [exists k|split].
    + destruct B as [B1 B2 B3 B4]. constructor; [intro z; specialize (B1 z); specialize (Z1 z)| |exact B3|exact B4]; rewrite !tsplit, !total_cons in *; lia.
    + rewrite concat_app in *. cbn [concat app] in *. apply Forall_app in F as [F1 F2]. apply Forall_app. split; [exact F1|]. constructor; [|exact F2]. destruct c0 as [[]|[]| | |]; try discriminate C; exact Logic.I.
    + apply Forall_app in P as [P1 P2]. inversion P2 as [|? ? P3 P4]; subst. apply Forall_app. split; [exact P1|]. constructor; [|exact P4]. apply paired_cons; assumption.
  - assert (Z0 : (forall z, wr z u = 0) /\ ws u = 0 /\ wa u = 0) by (destruct u as [[]|[]| | |]; try discriminate U; repeat split).
    destruct Z0 as (Z1 & Z2 & Z3). split; [exists k|split].
    + destruct B as [B1 B2 B3 B4]. constructor; [intro z; specialize (B1 z); specialize (Z1 z)| |exact B3|exact B4]; rewrite !tsplit, ?total_cons in *; lia.
    + rewrite concat_app in *. cbn [concat app] in *. apply Forall_app in F as [F1 F2]. apply Forall_app. split; [exact F1|]. inversion F2; assumption.
    + apply Forall_app in P as [P1 P2]. inversion P2 as [|? ? P3 P4]; subst. apply Forall_app. split; [exact P1|]. constructor; [|exact P4]. apply paired_tail in P3. exact P3.
  - rewrite concat_app in F. cbn [concat app] in F. apply Forall_app in F as [F1 F2]. inversion F2 as [|? ? F3 F4]; subst. apply Forall_app in F4 as [F4 F5].
    assert (B' : bal st (it :: stack ++ concat l ++ concat r) tr k).
    { destruct B as [B1 B2 B3 B4]. constructor; [intro z; specialize (B1 z)| |exact B3|exact B4]; rewrite !tsplit, ?total_cons, !total_app in *; lia. }
    destruct (ask_step _ _ _ _ _ _ _ _ _ S F3 B') as [[k' [B1 B2 B3 B4]] Q]. split; [exists k'|split].
    + constructor; [intro z; specialize (B1 z)| |exact B3|exact B4]; rewrite !tsplit, concat_app, !total_app in *; lia.
    + apply Forall_app in Q as [Q1 Q2]. rewrite concat_app. cbn [concat]. rewrite concat_app. repeat (apply Forall_app; split); assumption.
    + apply Forall_app in P as [P1 P2]. inversion P2 as [|? ? P3 P4]; subst. destruct (step_paired _ _ _ _ _ _ _ S F3 P3) as [P5 P6]. apply Forall_app. split; [exact P1|]. constructor; [exact P5|]. apply Forall_app. split; assumption.
Qed.
Lemma reach_k : forall st ths tr k, bal st (concat ths) tr k -> Forall paired ths -> k <= here (f_sub (r_out st)).
Proof.
  intros st ths tr k [B1 B2 B3 B4] P. assert (L : total ws (concat ths) <= total wa (concat ths)); [|lia]. clear - P. induction P as [|s l P F IH]; [reflexivity|]. cbn [concat]. rewrite !total_app. destruct (paired_le s P). lia.
Qed.
End Ask.

Definition zdec := Z.eq_dec.
Lemma count_requests : forall z tr, Z.of_nat (count_occ zdec (requests tr) z) = total (er z) tr.
Proof.
  intros z tr. unfold requests, out_calls. induction tr as [|e tr IH]; [reflexivity|]. rewrite total_cons. cbn [flat_map]. rewrite flat_map_app, count_occ_app, Nat2Z.inj_add, IH. f_equal.
  destruct e as [[[]| | | | | | | |]| | |]; try reflexivity. cbn. destruct (zdec n z) as [->|Ne]; [rewrite Z.eqb_refl; reflexivity|]. apply Z.eqb_neq in Ne. rewrite Ne. reflexivity.
Qed.
Lemma count_wished : forall z tr, Z.of_nat (count_occ zdec (wished tr) z) = total (en z) tr.
Proof.
  intros z tr. unfold wished. induction tr as [|e tr IH]; [reflexivity|]. rewrite total_cons. cbn [flat_map]. rewrite count_occ_app, Nat2Z.inj_add, IH. f_equal.
  destruct e as [| |[n| | |]|]; try reflexivity. cbn [en count_occ]. destruct (zdec (Z.of_N n) z) as [<-|Ne]; [rewrite Z.eqb_refl; reflexivity|]. apply Z.eqb_neq in Ne. rewrite Ne. reflexivity.
Qed.
Lemma begun_es : forall tr, begun tr = (0 <? total es tr).
Proof.
  intros tr. unfold begun, out_calls. induction tr as [|e tr IH]; [reflexivity|]. rewrite total_cons. cbn [flat_map]. rewrite existsb_app, IH.
  assert (0 <= total es tr) by (apply total_pos; intros [[[]| | | | | | | |]| | |]; cbn; lia).
  destruct e as [[[]| | | | | | | |]| | |]; cbn [es existsb orb]; rewrite ?Z.add_0_l; try reflexivity. symmetry. apply Z.ltb_lt. lia.
Qed.
Lemma count_initial : forall (b : bool) i z, Z.of_nat (count_occ zdec (if b then [i] else []) z) = here b * here (i =? z).
Proof. intros [] i z; cbn [count_occ here]; [|reflexivity]. destruct (zdec i z) as [->|Ne]; [rewrite Z.eqb_refl; reflexivity|]. apply Z.eqb_neq in Ne. rewrite Ne. reflexivity. Qed.

Lemma ask_all : forall sync gin sid initial st ths tr, ask_reach sync gin sid initial st ths tr -> existsb unasked (concat ths) = false ->
  Permutation (requests tr) ((if begun tr then [Z.of_N initial] else []) ++ wished tr).
Proof.
  intros sync gin sid initial st ths tr R U. destruct (reach_bal _ _ _ _ _ _ _ R) as [[k [B1 B2 B3 B4]] _].
  assert (Z0 : forall a, In a (concat ths) -> unasked a = false) by (intros a I; destruct (unasked a) eqn:X; [|reflexivity]; assert (Y : existsb unasked (concat ths) = true) by (apply existsb_exists; eauto); congruence).
  assert (W : forall w : ritem -> Z, (forall a, unasked a = false -> w a = 0) -> total w (concat ths) = 0) by (intros w Hw; apply total_zero; intros a I; apply Hw, Z0, I).
  rewrite (W ws), (W wa) in B2 by (intros [[| |[]| | | | | | | | |]| | | |] X; try discriminate X; reflexivity).
  rewrite (Permutation_count_occ zdec). intro z. apply Nat2Z.inj. rewrite count_occ_app, Nat2Z.inj_add, count_requests, count_wished, count_initial, begun_es. specialize (B1 z).
  rewrite (W (wr z)) in B1 by (intros [[| |[]| | | | | | | | |]| | | |] X; try discriminate X; reflexivity).
  assert (k = total es tr) by lia. destruct (f_sub (r_out st)); cbn [here] in B3; rewrite B3 in *; cbn [here Z.ltb Z.compare]; [replace k with 1 in B1 by lia|replace k with 0 in B1 by lia]; lia.
Qed.
Lemma ask_never_more : forall sync gin sid initial st ths tr, ask_reach sync gin sid initial st ths tr ->
  exists later, Permutation (requests tr ++ later) ((if begun tr then [Z.of_N initial] else []) ++ wished tr).
Proof.
  intros sync gin sid initial st ths tr R. destruct (reach_bal _ _ _ _ _ _ _ R) as [[k B] [_ P]]. assert (Lk := reach_k _ _ _ _ _ B P). destruct B as [B1 B2 B3 B4].
  set (pend := flat_map (fun it => match it with RO (FDo (FRequest n)) => [n] | _ => [] end) (concat ths)).
  assert (Cp : forall z, Z.of_nat (count_occ zdec pend z) = total (wr z) (concat ths)).
  { intro z. unfold pend. clear. induction (concat ths) as [|a l IH]; [reflexivity|]. rewrite total_cons. cbn [flat_map]. rewrite count_occ_app, Nat2Z.inj_add, IH. f_equal.
    destruct a as [a|a| | |]; try reflexivity. destruct a as [| |c| | | | | | | | |]; try reflexivity. destruct c; try reflexivity.
    cbn. destruct (zdec n z) as [->|Ne]; [rewrite Z.eqb_refl; reflexivity|]. apply Z.eqb_neq in Ne. rewrite Ne. reflexivity. }
  rewrite <- B3 in Lk. assert (Be : begun tr = (0 <? total es tr)) by apply begun_es. assert (Hb : here (begun tr) = total es tr) by (rewrite Be, B3; destruct (f_sub (r_out st)); reflexivity).
  exists (pend ++ (if Z.eqb k (total es tr) then [] else [Z.of_N initial])). rewrite (Permutation_count_occ zdec). intro z. apply Nat2Z.inj. specialize (B1 z). specialize (Cp z).
  rewrite !count_occ_app, !Nat2Z.inj_add, count_requests, count_wished, count_initial, Cp, Hb.
  assert (Q : Z.of_nat (count_occ zdec (if k =? total es tr then [] else [Z.of_N initial]) z) = (total es tr - k) * here (Z.of_N initial =? z)); [|lia].
  destruct (Z.eqb_spec k (total es tr)) as [->|Ne]; [cbn [count_occ]; lia|].
  assert (total es tr = 1 /\ k = 0) as [-> ->] by (rewrite B3 in *; destruct (f_sub (r_out st)); cbn [here] in *; lia). rewrite (count_initial true). reflexivity.
Qed.
