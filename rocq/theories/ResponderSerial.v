(** Sink calls that do not overlap, on any number of threads: the frames sent are those owed for the calls, in the order of the calls. *)
From Coq Require Import List NArith ZArith Bool Lia.
From Verif Require Import Base FramesModel MonoModel FluxModel FluxSpec ProxyModel ResponderModel ResponderSpec ResponderProofs.
Import ListNotations.

Section Proofs.
Context (sync : bool) (gin : fcfg) (sid initial : N).
Notation rstep := (rstep sync gin sid initial).
Notation rreach := (rreach sync gin sid initial).
Notation pend := (pend sid).

Definition sound (it : ritem) : bool :=
  proper it && match it with RO (FCommit (FNext _ | FComplete | FluxModel.FError _ | FOnSubscribe _ _)) => true | RO (FCommit _) => false | _ => true end.
Definition pending (ths : list (list ritem)) : list frame := flat_map (flat_map pend) ths.
Definition closings (ths : list (list ritem)) : bool := existsb (existsb top_closes) ths.

Lemma pending_app : forall a b, pending (a ++ b) = pending a ++ pending b.
Proof. intros. apply flat_map_app. Qed.
Lemma pending_at : forall l x rest, pending (l ++ x :: rest) = pending l ++ flat_map pend x ++ pending rest.
Proof. intros. rewrite pending_app. reflexivity. Qed.
Lemma closings_at : forall l x rest, closings (l ++ x :: rest) = closings l || (existsb top_closes x || closings rest).
Proof. intros. unfold closings. rewrite existsb_app. reflexivity. Qed.

Lemma wait_sound : forall it, wait it = true -> sound it = true.
Proof. intros it H. assert (P := wait_proper it H). unfold sound. rewrite P. apply wait_cases in H. destruct it as [it|it| | |c]; try reflexivity. destruct it; reflexivity || contradiction. Qed.
Lemma waits_pend : forall l, forallb wait l = true -> flat_map pend l = [].
Proof. induction l as [|x l IH]; [reflexivity|]. cbn [forallb flat_map]. rewrite andb_true_iff. intros [A B]. rewrite (wait_pend sid x A). exact (IH B). Qed.
Lemma waits_closes : forall l, forallb wait l = true -> existsb top_closes l = false.
Proof. induction l as [|x l IH]; [reflexivity|]. cbn [forallb existsb]. rewrite andb_true_iff. intros [A B]. rewrite (wait_closes x A). exact (IH B). Qed.
Lemma waits_sound : forall l, forallb wait l = true -> forallb sound l = true.
Proof. induction l as [|x l IH]; [reflexivity|]. cbn [forallb]. rewrite !andb_true_iff. intros [A B]. auto using wait_sound. Qed.

(** Items that hold nothing. *)
Lemma free_item : forall it, sound it = true -> holds it = false -> pend it = [] /\ top_closes it = false.
Proof.
  intros it S H. destruct it as [it|it| | |c]; try (split; reflexivity). destruct it as [| |c|c|on e| | | | | | |]; try (split; reflexivity).
  - destruct c; try discriminate S; try discriminate H; split; reflexivity.
  - destruct on; [|split; reflexivity]. destruct e; try discriminate H; split; reflexivity.
Qed.
Lemma free_items : forall l, forallb sound l = true -> filter holds l = [] -> flat_map pend l = [] /\ existsb top_closes l = false.
Proof.
  induction l as [|x l IH]; [split; reflexivity|]. cbn [forallb filter flat_map existsb]. rewrite andb_true_iff. intros [A B] H. destruct (holds x) eqn:Hx; [discriminate H|].
  destruct (free_item x A Hx) as [-> ->]. destruct (IH B H) as [-> ->]. split; reflexivity.
Qed.
Lemma free_threads : forall ths, forallb (forallb sound) ths = true -> held ths = [] -> pending ths = [] /\ closings ths = false.
Proof.
  induction ths as [|x l IH]; [split; reflexivity|]. cbn [forallb held flat_map pending closings existsb]. rewrite andb_true_iff. intros [A B] H. apply app_eq_nil in H. destruct H as [H1 H2].
  destruct (free_items x A H1) as [-> ->]. destruct (IH B H2) as [E1 E2]. unfold pending in E1. rewrite E1. unfold closings in E2. rewrite E2. split; reflexivity.
Qed.

Lemma step_new : forall st it st' its new evs, rstep st it = Some (st', its, new, evs) -> new = [] \/ exists x, new = [[x]] /\ wait x = true.
Proof.
  intros st it st' its new evs X.
  assert (G : forall s g f i fl its0 new0 evs0, @fstep pay bytes s g f i = Some (fl, its0, new0, evs0) -> new0 = [] \/ exists n, new0 = [[FRunSrc n]]).
  { intros s g f i fl its0 new0 evs0 Y. destruct i as [|n|c|c|on e| | |n|n|n|sg|sg]; cbn [fstep] in Y; try discriminate Y; try (injection Y as <- <- <- <-; left; reflexivity).
    - destruct c; repeat match type of Y with context [if ?b then _ else _] => destruct b end; try discriminate Y; injection Y as <- <- <- <-; left; reflexivity.
    - destruct c; try discriminate Y; injection Y as <- <- <- <-; left; reflexivity.
    - destruct on; [destruct e|]; injection Y as <- <- <- <-; left; reflexivity.
    - destruct s; injection Y as <- <- <- <-; [left; reflexivity|right; exists n; reflexivity].
    - destruct (f_req f); [|discriminate Y]. injection Y as <- <- <- <-; left; reflexivity. }
  assert (GO : forall i, match fstep sync resp_cfg (r_out st) i with Some (fl, its, new, evs) => Some (mkR fl (r_in st) (r_sub st), map RO its, map (map RO) new, map ROV evs) | None => None end = Some (st', its, new, evs) ->
     new = [] \/ exists x, new = [[x]] /\ wait x = true).
  { intros i Z. destruct (fstep sync resp_cfg (r_out st) i) as [[[[fl is] nw] ev]|] eqn:F; [|discriminate Z]. injection Z as <- <- <- <-. destruct (G _ _ _ _ _ _ _ _ F) as [->|[n ->]]; [left; reflexivity|right]. eexists. split; reflexivity. }
  assert (GI : forall i, match fstep sync gin (r_in st) i with Some (fl, its, new, evs) => Some (mkR (r_out st) fl (r_sub st), map RI its, map (map RI) new, map RIV evs) | None => None end = Some (st', its, new, evs) ->
     new = [] \/ exists x, new = [[x]] /\ wait x = true).
  { intros i Z. destruct (fstep sync gin (r_in st) i) as [[[[fl is] nw] ev]|] eqn:F; [|discriminate Z]. injection Z as <- <- <- <-. destruct (G _ _ _ _ _ _ _ _ F) as [->|[n ->]]; [left; reflexivity|right]. eexists. split; reflexivity. }
  destruct it as [it|it| | |c].
  - destruct it as [|n|c|c|on e| | |n|n|n|sg|sg]; try (match type of X with ResponderModel.rstep _ _ _ _ _ (_ ?i) = _ => exact (GO i X) end).
    destruct on; [|exact (GO (FEmit false e) X)]. cbn [ResponderModel.rstep] in X. destruct (frame_of sid e); [|exact (GO (FEmit true e) X)]. injection X as <- <- <- <-. left; reflexivity.
  - destruct it as [|n|c|c|on e| | |n|n|n|sg|sg]; try (match type of X with ResponderModel.rstep _ _ _ _ _ (_ ?i) = _ => exact (GI i X) end).
    + destruct c; try (match type of X with ResponderModel.rstep _ _ _ _ _ (_ ?i) = _ => exact (GI i X) end). cbn [ResponderModel.rstep] in X. destruct (fstep sync gin (r_in st) (FDo FSubscribe)) as [[[[fl is] nw] ev]|]; [|discriminate X]. injection X as <- <- <- <-. left; reflexivity.
    + destruct on; [|exact (GI (FEmit false e) X)]. destruct e; try (match type of X with ResponderModel.rstep _ _ _ _ _ (_ ?i) = _ => exact (GI i X) end); cbn [ResponderModel.rstep] in X; injection X as <- <- <- <-; left; reflexivity.
  - cbn in X. injection X as <- <- <- <-. left; reflexivity.
  - cbn in X. injection X as <- <- <- <-. left; reflexivity.
  - destruct c; cbn [ResponderModel.rstep] in X; match type of X with (if ?b then _ else _) = _ => destruct b end; try discriminate X; injection X as <- <- <- <-; left; reflexivity.
Qed.

(** Only a guarded call leaves what follows its test. *)
Lemma commit_from : forall st it st' c new evs, rstep st it = Some (st', [RO (FCommit c)], new, evs) -> it = RO (FDo c) /\ sound (RO (FCommit c)) = true.
Proof.
  intros st it st' c new evs X. destruct it as [it|it| | |n].
  - destruct it as [|n|c0|c0|on e| | |n|n|n|sg|sg]; try discriminate X.
    + destruct c0; cbn [ResponderModel.rstep fstep] in X; repeat match type of X with context [if ?b then _ else _] => destruct b end; try discriminate X; injection X as _ <- _ _; split; reflexivity.
    + destruct c0; cbn [ResponderModel.rstep fstep] in X; try discriminate X. destruct (0 <? f_n (r_out st))%Z; discriminate X.
    + destruct on; [|discriminate X]. cbn [ResponderModel.rstep] in X. destruct (frame_of sid e); [discriminate X|]. destruct e; discriminate X.
    + cbn [ResponderModel.rstep fstep] in X. destruct (f_n (r_out st) =? 0)%Z; discriminate X.
    + cbn [ResponderModel.rstep fstep] in X. destruct (f_req (r_out st)); discriminate X.
    + cbn [ResponderModel.rstep fstep] in X. destruct sync; discriminate X.
    + cbn [ResponderModel.rstep fstep] in X. destruct (f_req (r_out st)); discriminate X.
    + cbn [ResponderModel.rstep fstep] in X. destruct (f_cbs (r_out st)) as [|k l]; [discriminate X|]. discriminate X.
  - assert (G : forall i, match fstep sync gin (r_in st) i with Some (fl, its, new, evs) => Some (mkR (r_out st) fl (r_sub st), map RI its, map (map RI) new, map RIV evs) | None => None end = Some (st', [RO (FCommit c)], new, evs) -> False).
    { intros i Z. destruct (fstep sync gin (r_in st) i) as [[[[fl is] nw] ev]|]; [|discriminate Z]. injection Z as _ Z _ _. destruct is; discriminate Z. }
    exfalso. destruct it as [|n|c0|c0|on e| | |n|n|n|sg|sg]; try (match type of X with ResponderModel.rstep _ _ _ _ _ (_ ?i) = _ => exact (G i X) end).
    + destruct c0; try (match type of X with ResponderModel.rstep _ _ _ _ _ (_ ?i) = _ => exact (G i X) end). cbn [ResponderModel.rstep] in X. destruct (fstep sync gin (r_in st) (FDo FSubscribe)) as [[[[fl is] nw] ev]|]; discriminate X.
    + destruct on; [|exact (G (FEmit false e) X)]. destruct e; try (match type of X with ResponderModel.rstep _ _ _ _ _ (_ ?i) = _ => exact (G i X) end); discriminate X.
  - discriminate X.
  - discriminate X.
  - destruct n; cbn [ResponderModel.rstep] in X; match type of X with (if ?b then _ else _) = _ => destruct b end; discriminate X.
Qed.

Record sinv (st : rst) (ths : list (list ritem)) (tr : list revent) : Prop := {
  s_one : (length (held ths) <= 1)%nat;
  s_sound : forallb (forallb sound) ths = true;
  s_answer : answer sid (out_calls tr) = answers tr ++ pending ths;
  s_closed : existsb closes (out_calls tr) = f_closed (r_out st) || closings ths }.

Lemma snoc_answer : forall l c, answer sid (l ++ [c]) = answer sid l ++ (if existsb closes l then [] else owed sid c).
Proof. intros l c. unfold answer. rewrite upto_snoc. destruct (existsb closes l); [rewrite app_nil_r; reflexivity|]. rewrite flat_map_app. cbn [flat_map]. rewrite app_nil_r. reflexivity. Qed.

(** Nothing but the one item is pending. *)
Lemma alone : forall l it stack rest, (length (held (l ++ (it :: stack) :: rest)) <= 1)%nat -> forallb (forallb sound) (l ++ (it :: stack) :: rest) = true ->
  holds it = true -> pending l = [] /\ flat_map pend stack = [] /\ pending rest = [] /\ closings l = false /\ existsb top_closes stack = false /\ closings rest = false.
Proof.
  intros l it stack rest O S H. rewrite held_at in O. cbn [filter] in O. rewrite H in O. rewrite app_length in O. cbn [app length] in O. rewrite app_length in O.
  rewrite forallb_app in S. cbn [forallb] in S. rewrite !andb_true_iff in S. destruct S as (S1 & (_ & S2) & S3).
  assert (H1 : held l = []) by (destruct (held l); [reflexivity|cbn [length] in O; lia]).
  assert (H2 : filter holds stack = []) by (destruct (filter holds stack); [reflexivity|cbn [length] in O; lia]).
  assert (H3 : held rest = []) by (destruct (held rest); [reflexivity|cbn [length] in O; lia]).
  destruct (free_threads l S1 H1), (free_items stack S2 H2), (free_threads rest S3 H3). auto 10.
Qed.

Lemma sinv_step : forall st l it stack rest tr st' its new evs, sinv st (l ++ (it :: stack) :: rest) tr -> rstep st it = Some (st', its, new, evs) ->
  (begins it = true -> idle (l ++ (it :: stack) :: rest) = true) -> (length (held (l ++ (its ++ stack) :: rest ++ new)) <= 1)%nat ->
  sinv st' (l ++ (its ++ stack) :: rest ++ new) (tr ++ evs).
Proof.
  intros st l it stack rest tr st' its new evs [O S A C] X Sr O'.
  assert (Nw : pending new = [] /\ closings new = false /\ forallb (forallb sound) new = true).
  { destruct (step_new _ _ _ _ _ _ X) as [->|(x & -> & W)]; [repeat split|]. unfold pending, closings. cbn [flat_map existsb forallb]. rewrite (wait_pend sid x W), (wait_closes x W), (wait_sound x W). repeat split. }
  destruct Nw as (N1 & N2 & N3).
  assert (S0 := S). rewrite forallb_app in S0. cbn [forallb] in S0. rewrite !andb_true_iff in S0. destruct S0 as (S1 & (Si & S2) & S3).
  assert (P : proper it = true) by (unfold sound in Si; apply andb_true_iff in Si; tauto).
  assert (Pn : pending (l ++ (its ++ stack) :: rest ++ new) = pending l ++ flat_map pend its ++ flat_map pend stack ++ pending rest).
  { rewrite pending_at, pending_app, N1, app_nil_r, flat_map_app, <- app_assoc. reflexivity. }
  assert (Cn : closings (l ++ (its ++ stack) :: rest ++ new) = closings l || (existsb top_closes its || existsb top_closes stack || closings rest)).
  { rewrite closings_at, existsb_app. unfold closings at 2. rewrite existsb_app. fold (closings rest) (closings new). rewrite N2, orb_false_r. reflexivity. }
  assert (Sn : forallb sound its = true -> forallb (forallb sound) (l ++ (its ++ stack) :: rest ++ new) = true).
  { intro Z. rewrite forallb_app. cbn [forallb]. rewrite !forallb_app, S1, Z, S2, S3, N3. reflexivity. }
  rewrite pending_at in A. cbn [flat_map] in A. rewrite closings_at in C. cbn [existsb] in C.
  destruct (step_move sync gin sid initial st it st' its new evs P X) as [Pd Tc An Wi Ca|c Pd Tc E An Oc Cd I|c I Oc An Cd M|e f I F E Is An Oc].
  - rewrite Pd in A. rewrite Tc in C. cbn [app orb] in A, C. assert (Wp := waits_pend its Wi). assert (Wc := waits_closes its Wi). constructor.
    + exact O'.
    + apply Sn. apply waits_sound. exact Wi.
    + rewrite Pn, Wp, answers_app, An, app_nil_r, calls_app. cbn [app]. destruct Ca as [[-> _]|(c & -> & Ow & _)]; [rewrite app_nil_r; exact A|].
      rewrite snoc_answer, A. destruct Ow as [Ow|Ow]; [rewrite Ow|rewrite C, Ow; cbn [orb]; apply app_nil_r]. destruct (existsb closes (out_calls tr)); apply app_nil_r.
    + rewrite Cn, Wc, calls_app. cbn [orb]. destruct Ca as [[-> ->]|(c & -> & _ & ->)]; [rewrite app_nil_r; exact C|]. rewrite existsb_app, C. cbn [existsb]. rewrite orb_false_r.
      destruct (f_closed (r_out st)), (closes c), (closings l || (existsb top_closes stack || closings rest)); reflexivity.
  - subst its st'. rewrite Pd in A. rewrite Tc in C. cbn [app orb] in A, C. destruct (commit_from _ _ _ _ _ _ X) as [-> Sc].
    constructor.
    + exact O'.
    + apply Sn. cbn [forallb]. rewrite Sc. reflexivity.
    + rewrite Pn, answers_app, An, app_nil_r, calls_app, Oc, snoc_answer, A. cbn [flat_map]. rewrite app_nil_r. change (pend (RO (FCommit c))) with (owed sid c).
      destruct (owed sid c) as [|f fs] eqn:Ow; [destruct (existsb closes (out_calls tr)); rewrite app_nil_r; reflexivity|]. rewrite <- Ow.
      assert (B : begins (RO (FDo c)) = true) by (destruct c; try discriminate Ow; reflexivity). assert (H := held_idle _ (Sr B)). destruct (free_threads _ S H) as [Fp Fc]. rewrite pending_at in Fp. rewrite closings_at in Fc. cbn [flat_map existsb] in Fp, Fc.
      change (pend (RO (FDo c))) with (@nil frame) in Fp. change (top_closes (RO (FDo c))) with false in Fc. cbn [app orb] in Fp, Fc. apply app_eq_nil in Fp. destruct Fp as [F1 F2]. apply app_eq_nil in F2. destruct F2 as [F2 F3].
      rewrite F1, F2, F3. cbn [app]. rewrite !app_nil_r. rewrite C, Cd, Fc. reflexivity.
    + rewrite Cn, calls_app, Oc, existsb_app, C, Cd. cbn [existsb orb]. rewrite !orb_false_r. change (top_closes (RO (FCommit c))) with (closes c).
      destruct (closes c), (closings l), (existsb top_closes stack), (closings rest); reflexivity.
  - subst it. change (pend (RO (FCommit c))) with (owed sid c) in A. change (top_closes (RO (FCommit c))) with (closes c) in C. destruct M as [(x & y & -> & Px & Pr & Tx & Kx & Wy)|[Ow Wi]].
    + constructor.
      * exact O'.
      * apply Sn. cbn [forallb]. rewrite (waits_sound y Wy), andb_true_r. unfold sound. rewrite Pr. destruct x as [i|i| | |n]; try reflexivity. destruct i; try reflexivity. contradiction.
      * rewrite Pn. cbn [flat_map]. rewrite Px, (waits_pend y Wy), app_nil_r, answers_app, An, app_nil_r, calls_app, Oc, app_nil_r, A, <- app_assoc. reflexivity.
      * rewrite Cn. cbn [existsb]. rewrite Tx, (waits_closes y Wy), calls_app, Oc, app_nil_r, C, Cd. cbn [orb]. destruct (f_closed (r_out st)), (closes c), (closings l), (existsb top_closes stack), (closings rest); reflexivity.
    + rewrite Ow in A. cbn [app] in A. constructor.
      * exact O'.
      * apply Sn. apply waits_sound. exact Wi.
      * rewrite Pn, (waits_pend its Wi), answers_app, An, app_nil_r, calls_app, Oc, app_nil_r. exact A.
      * rewrite Cn, (waits_closes its Wi), calls_app, Oc, app_nil_r, C, Cd. cbn [orb]. destruct (f_closed (r_out st)), (closes c), (closings l), (existsb top_closes stack), (closings rest); reflexivity.
  - subst it st' its. change (pend (RO (FEmit true e))) with (match frame_of sid e with Some f => [f] | None => [] end) in A. rewrite F in A. change (top_closes (RO (FEmit true e))) with false in C. cbn [orb] in C.
    assert (H : holds (RO (FEmit true e)) = true) by (destruct e; try discriminate F; reflexivity). destruct (alone l _ stack rest O S H) as (P1 & P2 & P3 & _). constructor.
    + exact O'.
    + apply Sn. reflexivity.
    + rewrite Pn, answers_app, An, calls_app, Oc, app_nil_r, A, P1, P2, P3. cbn [flat_map app]. rewrite !app_nil_r. reflexivity.
    + rewrite Cn, calls_app, Oc, app_nil_r. exact C.
Qed.

Lemma sinv_call : forall st l u stack rest tr c, sinv st (l ++ (u :: stack) :: rest) tr -> wait c = true -> holds c = false -> sinv st (l ++ (c :: u :: stack) :: rest) tr.
Proof.
  intros st l u stack rest tr c [O S A C] W H. constructor.
  - rewrite held_at in *. cbn [filter] in *. rewrite H. exact O.
  - rewrite forallb_app in *. cbn [forallb] in *. rewrite (wait_sound c W). exact S.
  - rewrite pending_at in *. cbn [flat_map] in *. rewrite (wait_pend sid c W). exact A.
  - rewrite closings_at in *. cbn [existsb] in *. rewrite (wait_closes c W). exact C.
Qed.
Lemma sinv_return : forall st l u stack rest tr, sinv st (l ++ (u :: stack) :: rest) tr -> is_ruser u = true -> sinv st (l ++ stack :: rest) tr.
Proof.
  intros st l u stack rest tr [O S A C] U. assert (W := user_wait u U). constructor.
  - rewrite held_at in *. cbn [filter] in *. rewrite (user_holds u U) in O. exact O.
  - rewrite forallb_app in *. cbn [forallb] in *. rewrite !andb_true_iff in *. tauto.
  - rewrite pending_at in *. cbn [flat_map] in *. rewrite (wait_pend sid u W) in A. exact A.
  - rewrite closings_at in *. cbn [existsb] in *. rewrite (wait_closes u W) in C. exact C.
Qed.
Lemma sinv_init : forall n, sinv responder_create (repeat [RO FUser] n) [].
Proof.
  intro n. assert (Q : held (repeat [RO FUser] n) = []) by (induction n; [reflexivity|assumption]). assert (S : forallb (forallb sound) (repeat [RO FUser] n) = true) by (induction n; [reflexivity|apply IHn; cbn in Q; exact Q]).
  destruct (free_threads _ S Q) as [E1 E2]. constructor; [rewrite Q; apply Nat.le_0_l|exact S|rewrite E1; reflexivity|rewrite E2; reflexivity].
Qed.

Lemma reach_sinv : forall st ths tr, rreach true st ths tr -> sinv st ths tr.
Proof.
  intros st ths tr R. assert (I := reach_inv sync gin sid initial _ _ _ R). revert I.
  induction R as [n|st l u stack rest tr c R IH Hu Hc|st l u stack rest tr R IH Hu Hs|st l it stack rest tr st' its new evs R IH Hs Hb]; intro I.
  - apply sinv_init.
  - apply sinv_call; [apply IH; exact (reach_inv sync gin sid initial _ _ _ R)|apply call_wait; exact Hc|apply call_holds; exact Hc].
  - eapply sinv_return; [apply IH; exact (reach_inv sync gin sid initial _ _ _ R)|exact Hu].
  - eapply sinv_step; [apply IH; exact (reach_inv sync gin sid initial _ _ _ R)|exact Hs| |exact (v_one _ _ _ I)]. intro B. apply Hb; [reflexivity|exact B].
Qed.

Lemma serial_answer : forall st ths tr, rreach true st ths tr -> (exists d, answer sid (out_calls tr) = answers tr ++ d) /\ (idle ths = true -> answers tr = answer sid (out_calls tr)).
Proof.
  intros st ths tr R. destruct (reach_sinv _ _ _ R) as [O S A C]. split; [eexists; exact A|]. intro I. destruct (free_threads ths S (held_idle ths I)) as [P _]. rewrite A, P, app_nil_r. reflexivity.
Qed.
End Proofs.
