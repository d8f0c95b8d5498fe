(** Credit: a handler that returns a slice. *)
From Coq Require Import List NArith ZArith Bool Lia.
From Verif Require Import Base FramesModel MonoModel FluxModel FluxSpec FluxProofs SliceModel SliceSpec SliceProofs ProxyModel ProxySpec ResponderModel ResponderSpec.
Import ListNotations.

Section Credit.
Context {T E : Type} (g : fcfg) (response nested : bool).
Definition uw (it : sitem T E) : Z := match it with SI (FReq n) | SI (FDoReq n) | SI (FRunSrc n) | SI (FEmit true (VReqSrc n)) => Z.max 0 n | _ => 0%Z end.
Definition U (l : list (sitem T E)) : Z := fold_right Z.add 0%Z (map uw l).
Definition ons (it : sitem T E) : bool := match it with SI (FDo (FOnSubscribe _ _)) | SI (FCommit (FOnSubscribe _ _)) => true | _ => false end.
Definition nob (it : sitem T E) : bool := match it with SI (FDo (FOnSubscribe false _)) | SI (FCommit (FOnSubscribe false _)) => true | _ => false end.
Definition O (l : list (sitem T E)) : nat := length (filter ons l).
Definition early (st : flst) : Z := if f_req st then 0%Z else Z.max 0 (f_n st).
Lemma U_app : forall a b, U (a ++ b) = (U a + U b)%Z.
Proof. intros. unfold U. rewrite map_app. apply sum_app. Qed.
Lemma O_app : forall a b, O (a ++ b) = (O a + O b)%nat.
Proof. intros. unfold O. rewrite filter_app, app_length. reflexivity. Qed.
Lemma U_nonneg : forall l, (0 <= U l)%Z.
Proof. induction l as [|x l IH]; [apply Z.le_refl|]. unfold U in *. cbn [map fold_right]. assert (0 <= uw x)%Z by (destruct x as [i| | | |]; try apply Z.le_refl; destruct i as [| | | |on e| | | | | | |]; try apply Z.le_refl; try apply Z.le_max_l; destruct on; [|apply Z.le_refl]; destruct e; try apply Z.le_refl; apply Z.le_max_l). lia. Qed.
Lemma granted_app : forall a b : list (fevent T E), granted (a ++ b) = (granted a + granted b)%Z.
Proof. intros. unfold granted, fcalls. rewrite !flat_map_app. apply sum_app. Qed.
Lemma granted_nonneg : forall tr : list (fevent T E), (0 <= granted tr)%Z.
Proof. intro tr. unfold granted. induction (fcalls tr) as [|c l IH]; [apply Z.le_refl|]. cbn [flat_map]. rewrite sum_app. destruct c; cbn [fold_right]; lia. Qed.

Record inv (st : flst) (stack : list (sitem T E)) (tr : list (fevent T E)) : Prop := {
  c_sum : (requested tr + U stack + early st <= granted tr)%Z;
  c_nob : existsb nob stack = false;
  c_one : (O stack <= 1)%nat;
  c_ons : (1 <= O stack)%nat -> f_req st = false;
  c_sub : f_sub st = false -> f_req st = false /\ O stack = 0%nat }.

(** What one step does. *)
Record fine (st : flst) (it : sitem T E) (st' : flst) (its : list (sitem T E)) (evs : list (fevent T E)) : Prop := {
  d_sum : (requested evs + U its + early st' <= granted evs + uw it + early st)%Z;
  d_ons : (O its <= O [it])%nat \/ (f_sub st = false /\ O its = 1%nat /\ f_req st' = f_req st);
  d_req : f_req st' = f_req st \/ (O [it] = 1%nat /\ O its = 0%nat);
  d_sub : f_sub st' = false -> f_sub st = false /\ f_req st' = f_req st }.

Lemma step_nob : forall st vs it st' vs' its evs, nob it = false -> sstep g response st vs it = Some (st', vs', its, evs) -> existsb nob its = false.
Proof.
  intros st vs it st' vs' its evs On X. destruct it as [it|n|i|i num|].
  - destruct it as [|n|c|c|on e| | |n|n|n|sg|sg]; try discriminate X.
    + destruct c; cbn [sstep fstep] in X; repeat match type of X with context [if ?b then _ else _] => let B := fresh "B" in destruct b eqn:B end; try discriminate X; cbn [map] in X; injection X as <- <- <- <-; try reflexivity. destruct request; [reflexivity|discriminate On].
    + destruct c; cbn [sstep fstep] in X; try discriminate X; cbn [map] in X; injection X as <- <- <- <-; try reflexivity. destruct (0 <? f_n st)%Z; reflexivity.
    + destruct on; [destruct e|]; cbn [sstep fstep map] in X; injection X as <- <- <- <-; reflexivity.
    + cbn [sstep fstep] in X. injection X as <- <- <- <-. destruct (f_n st =? 0)%Z; reflexivity.
    + cbn [sstep fstep] in X. injection X as <- <- <- <-. destruct (k_norequest g); [|destruct (k_request g)]; reflexivity.
    + cbn [sstep fstep] in X. injection X as <- <- <- <-. destruct (f_req st); reflexivity.
    + cbn [sstep fstep map] in X. injection X as <- <- <- <-. reflexivity.
    + cbn [sstep fstep] in X. destruct (f_req st) eqn:Rq; [|discriminate X]. injection X as <- <- <- <-. reflexivity.
    + cbn [sstep fstep map] in X. injection X as <- <- <- <-. reflexivity.
    + cbn [sstep fstep map] in X. injection X as <- <- <- <-. induction (f_cbs st); [reflexivity|assumption].
  - cbn [sstep] in X. destruct response; injection X as <- <- <- <-; reflexivity.
  - cbn [sstep] in X. destruct vs as [|v vs]; [|destruct (0 <? i)%Z]; injection X as <- <- <- <-; reflexivity.
  - cbn [sstep] in X. destruct (i <? num)%Z; [destruct (nth_error vs (Z.to_nat i)); [|discriminate X]|destruct ((num <? 0) || (Z.of_nat (length vs) <? num))%Z; [discriminate X|]; destruct (skipn (Z.to_nat num) vs)]; injection X as <- <- <- <-; reflexivity.
  - cbn in X. injection X as <- <- <- <-. reflexivity.
Qed.

Lemma step_fine : manual g = true -> forall st vs it st' vs' its evs, nob it = false -> (ons it = true -> f_req st = false /\ f_sub st = true) -> sstep g response st vs it = Some (st', vs', its, evs) -> fine st it st' its evs.
Proof.
  intros Ma st vs it st' vs' its evs Nb On X.
  assert (Z0 : forall x y : Z, (x <= y)%Z -> (0 + 0 + x <= 0 + 0 + y)%Z) by lia.
  destruct it as [it|n|i|i num|].
  - destruct it as [|n|c|c|on e| | |n|n|n|sg|sg]; try discriminate X.
    + destruct c; cbn [sstep fstep] in X; repeat match type of X with context [if ?b then _ else _] => let B := fresh "B" in destruct b eqn:B end; try discriminate X; cbn [map] in X; injection X as <- <- <- <-;
      try (constructor; [cbn; unfold early; cbn; lia|left; cbn; lia|left; reflexivity|cbn [f_sub set_closed set_cbs f_req]; auto]; fail).
      * constructor; [cbn; unfold early; cbn; destruct (f_req st); lia|right; auto|left; reflexivity|cbn; discriminate].
      * constructor; [unfold early; destruct (f_can st), (k_finally g); cbn; destruct (f_req st); lia|left; destruct (f_can st), (k_finally g); cbn; lia|left; reflexivity|cbn; auto].
    + destruct c; cbn [sstep fstep] in X; try discriminate X; cbn [map] in X; injection X as <- <- <- <-.
      * constructor; [unfold early; cbn [f_req f_n set_n U map fold_right uw requested granted fcalls flat_map]; destruct (k_next g); cbn; destruct (f_req st); lia|left; destruct (k_next g); cbn; lia|left; reflexivity|cbn; auto].
      * constructor; [destruct (k_complete g); cbn; unfold early; cbn; destruct (f_req st); lia|left; destruct (k_complete g); cbn; lia|left; reflexivity|cbn; auto].
      * constructor; [destruct (k_error g); cbn; unfold early; cbn; destruct (f_req st); lia|left; destruct (k_error g); cbn; lia|left; reflexivity|cbn; auto].
      * destruct (On eq_refl) as [Rq Sb]. destruct request; [|discriminate Nb]. constructor.
        -- unfold early. cbn [f_req f_n]. rewrite Rq. destruct (0 <? f_n st)%Z eqn:P; cbn; lia.
        -- left. destruct (0 <? f_n st)%Z; cbn; lia.
        -- right. split; [reflexivity|]. destruct (0 <? f_n st)%Z; reflexivity.
        -- cbn [f_sub]. congruence.
    + destruct on; [destruct e|]; cbn [sstep fstep map] in X; injection X as <- <- <- <-; (constructor; [cbn; unfold early; cbn; try (match goal with |- context [granted [?e]] => assert (Q := granted_nonneg [e]) end); try lia|left; cbn; lia|left; reflexivity|auto]).
      destruct c; cbn; destruct (f_req st); lia.
    + cbn [sstep fstep] in X. injection X as <- <- <- <-. constructor; [destruct (f_n st =? 0)%Z; cbn; lia|left; destruct (f_n st =? 0)%Z; cbn; lia|left; reflexivity|auto].
    + cbn [sstep fstep] in X. unfold manual in Ma. destruct (k_norequest g); [|destruct (k_request g); [|discriminate Ma]]; cbn [map] in X; injection X as <- <- <- <-; (constructor; [cbn; lia|left; cbn; lia|left; reflexivity|auto]).
    + cbn [sstep fstep] in X. injection X as <- <- <- <-. constructor; [unfold early; cbn [f_req f_n set_n]; destruct (f_req st); cbn; lia|left; destruct (f_req st); cbn; lia|left; reflexivity|auto].
    + cbn [sstep fstep map] in X. injection X as <- <- <- <-. constructor; [cbn; lia|left; cbn; lia|left; reflexivity|auto].
    + cbn [sstep fstep] in X. destruct (f_req st) eqn:Rq; [|discriminate X]. cbn [map] in X. injection X as <- <- <- <-. constructor; [cbn; lia|left; cbn; lia|left; reflexivity|auto].
    + cbn [sstep fstep map] in X. injection X as <- <- <- <-. constructor; [destruct (k_finally g); cbn; unfold early; cbn; destruct (f_req st); lia|left; destruct (k_finally g); cbn; lia|left; reflexivity|auto].
    + cbn [sstep fstep map] in X. injection X as <- <- <- <-.
      assert (Q : U (map SI (map (fun k => FEmit true (VNotify k sg)) (f_cbs st))) = 0%Z /\ O (map SI (map (fun k => FEmit true (VNotify k sg)) (f_cbs st))) = 0%nat) by (induction (f_cbs st) as [|k l [I1 I2]]; [split; reflexivity|]; split; [exact I1|exact I2]).
      destruct Q as [Q1 Q2]. constructor; [rewrite Q1; cbn; lia|left; rewrite Q2; apply Nat.le_0_l|left; reflexivity|auto].
  - cbn [sstep] in X. destruct response; injection X as <- <- <- <-; (constructor; [cbn; lia|left; cbn; lia|left; reflexivity|auto]).
  - cbn [sstep] in X. destruct vs as [|v vs]; [|destruct (0 <? i)%Z]; injection X as <- <- <- <-; (constructor; [cbn; lia|left; cbn; lia|left; reflexivity|auto]).
  - cbn [sstep] in X. destruct (i <? num)%Z; [destruct (nth_error vs (Z.to_nat i)); [|discriminate X]|destruct ((num <? 0) || (Z.of_nat (length vs) <? num))%Z; [discriminate X|]; destruct (skipn (Z.to_nat num) vs)]; injection X as <- <- <- <-; (constructor; [cbn; lia|left; cbn; lia|left; reflexivity|auto]).
  - cbn in X. injection X as <- <- <- <-. constructor; [cbn; lia|left; cbn; lia|left; reflexivity|auto].
Qed.

Lemma O_cons : forall it l, O (it :: l) = (O [it] + O l)%nat.
Proof. intros. exact (O_app [it] l). Qed.
Lemma O_ons : forall it, ons it = true -> O [it] = 1%nat.
Proof. intros it H. unfold O. cbn [filter]. rewrite H. reflexivity. Qed.
Lemma U_cons : forall it l, U (it :: l) = (uw it + U l)%Z.
Proof. reflexivity. Qed.

Lemma reach_inv : manual g = true -> forall values st vs stack tr, sreach g response nested values st vs stack tr -> inv st stack tr.
Proof.
  intros Ma values st vs stack tr R. induction R as [|st vs stack tr c R IH Hc|st vs stack tr R IH Hs|st vs it stack tr st' vs' its evs R IH Hs Hn].
  - constructor; cbn; auto; try lia.
  - destruct IH as [A N B C D]. assert (Q : uw (SI (FDo c)) = 0%Z) by reflexivity. assert (Q3 : nob (@SI T E (FDo c)) = false) by (destruct c; reflexivity || discriminate Hc). assert (Q2 : O [@SI T E (FDo c)] = 0%nat) by (destruct c; reflexivity || discriminate Hc).
    assert (U (SI (FDo c) :: SI FUser :: stack) = U (SI FUser :: stack)) by (rewrite U_cons, Q; apply Z.add_0_l).
    assert (O (SI (FDo c) :: SI FUser :: stack) = O (SI FUser :: stack)) by (rewrite O_cons, Q2; apply Nat.add_0_l).
    constructor; [congruence|cbn [existsb] in N |- *; rewrite Q3; exact N|congruence| |]; replace (O (SI (FDo c) :: SI FUser :: stack)) with (O (SI FUser :: stack)) by congruence; assumption.
  - destruct IH as [A N B C D]. cbn [existsb] in N. constructor; try assumption.
  - destruct IH as [A N B C D]. rewrite U_cons in A. rewrite O_cons in B, C, D. cbn [existsb] in N. apply orb_false_iff in N. destruct N as [N1 N2].
    assert (On : ons it = true -> f_req st = false /\ f_sub st = true).
    { intro Q. rewrite (O_ons it Q) in *. split; [apply C; lia|]. destruct (f_sub st); [reflexivity|]. destruct (D eq_refl) as [_ D2]. lia. }
    destruct (step_fine Ma _ _ _ _ _ _ _ N1 On Hs) as [S1 S2 S3 S4]. constructor.
    + rewrite requested_app, granted_app, U_app. lia.
    + rewrite existsb_app, (step_nob _ _ _ _ _ _ _ N1 Hs). exact N2.
    + rewrite O_app. destruct S2 as [S2|(Sb & S2 & _)]; [lia|]. destruct (D Sb) as [_ D2]. lia.
    + rewrite O_app. intro Q. destruct S3 as [S3|[S3 S5]]; [|lia]. rewrite S3. destruct S2 as [S2|(Sb & _)]; [apply C; lia|apply D; exact Sb].
    + intro Q. destruct (S4 Q) as [Sb Rq]. destruct (D Sb) as [D1 D2]. rewrite Rq. split; [exact D1|]. rewrite O_app. destruct S2 as [S2|(_ & S2 & _)]; [lia|].
      exfalso. clear - Hs Q Sb S2. destruct it as [it|n|i|i num|].
      * destruct it as [|n|c|c|on e| | |n|n|n|sg|sg]; cbn [sstep fstep] in Hs; try discriminate Hs.
        -- destruct c; cbn [sstep fstep] in Hs; rewrite ?Sb in Hs; cbn [negb andb] in Hs; try discriminate Hs; injection Hs as <- <- <- <-; try discriminate Q; discriminate S2.
        -- destruct c; try discriminate Hs; injection Hs as <- <- <- <-; try discriminate Q; try discriminate S2; destruct (0 <? f_n st)%Z; discriminate S2.
        -- destruct on; [destruct e|]; injection Hs as <- <- <- <-; discriminate S2.
        -- injection Hs as <- <- <- <-. destruct (f_n st =? 0)%Z; discriminate S2.
        -- injection Hs as <- <- <- <-. destruct (k_norequest g); [|destruct (k_request g)]; discriminate S2.
        -- injection Hs as <- <- <- <-. destruct (f_req st); discriminate S2.
        -- injection Hs as <- <- <- <-. discriminate S2.
        -- destruct (f_req st); [|discriminate Hs]. injection Hs as <- <- <- <-. discriminate S2.
        -- injection Hs as <- <- <- <-. discriminate S2.
        -- injection Hs as <- <- <- <-. revert S2. clear. induction (f_cbs st); [discriminate|assumption].
      * cbn [sstep] in Hs. destruct response; injection Hs as <- <- <- <-; discriminate S2.
      * cbn [sstep] in Hs. destruct vs as [|v vs]; [|destruct (0 <? i)%Z]; injection Hs as <- <- <- <-; discriminate S2.
      * cbn [sstep] in Hs. destruct (i <? num)%Z; [destruct (nth_error vs (Z.to_nat i)); [|discriminate Hs]|destruct ((num <? 0) || (Z.of_nat (length vs) <? num))%Z; [discriminate Hs|]; destruct (skipn (Z.to_nat num) vs)]; injection Hs as <- <- <- <-; discriminate S2.
      * cbn in Hs. injection Hs as <- <- <- <-. discriminate S2.
Qed.

Lemma requested_granted : manual g = true -> forall values st vs stack (tr : list (fevent T E)), sreach g response nested values st vs stack tr -> (requested tr <= granted tr)%Z.
Proof.
  intros Ma values st vs stack tr R. destruct (reach_inv Ma _ _ _ _ _ R) as [A _ _ _ _]. assert (B := U_nonneg stack). unfold early in A. destruct (f_req st); lia.
Qed.
End Credit.

(** ** Frames *)
Lemma frames_delivered : forall sid tr, frames_of sid tr = frames_of sid (delivered tr).
Proof. intros sid tr. induction tr as [|e t IH]; [reflexivity|]. unfold frames_of, delivered in *. cbn [flat_map filter]. destruct e; cbn [is_delivery frame_of flat_map app]; rewrite ?IH; reflexivity. Qed.
Lemma frames_app : forall sid a b, frames_of sid (a ++ b) = frames_of sid a ++ frames_of sid b.
Proof. intros. apply flat_map_app. Qed.
Lemma payloads_app : forall a b, payloads (a ++ b) = (payloads a + payloads b)%nat.
Proof. intros. unfold payloads. rewrite filter_app, app_length. reflexivity. Qed.
Lemma wf_prefix : forall {T E} (a b : list (fevent T E)), well_formed (a ++ b) = true -> forallb is_delivery (a ++ b) = true -> well_formed a = true.
Proof.
  induction a as [|x a IH]; intros b W D; [reflexivity|]. destruct a as [|y a]; [cbn [app forallb] in D; apply andb_true_iff in D; destruct x; try (destruct D as [D _]; discriminate D); reflexivity|].
  cbn [app] in *. cbn [forallb] in D. apply andb_true_iff in D. destruct D as [D1 D2]. destruct x; try discriminate D1; cbn [well_formed] in *; try discriminate W. apply (IH b); assumption.
Qed.
Lemma wf_frames : forall sid l, well_formed l = true -> stream_ok (frames_of sid l) = true.
Proof.
  intros sid. induction l as [|x l IH]; intro W; [reflexivity|]. destruct l as [|y l].
  - destruct x; try discriminate W; reflexivity.
  - assert (X : exists v, x = VNext v) by (destruct x; try discriminate W; eexists; reflexivity). destruct X as [v ->]. cbn [well_formed] in W. specialize (IH W).
    change (frames_of sid (VNext v :: y :: l)) with (FPayload (mkPayload sid (snd v) (fst v) false false true) :: frames_of sid (y :: l)).
    cbn [stream_ok terminal pf_complete negb andb]. destruct (frames_of sid (y :: l)); [reflexivity|exact IH].
Qed.
Lemma expected_dels : forall {T E} g (l : list (fcall T E)), forallb is_delivery (expected g l) = true.
Proof.
  intros T E g l. unfold expected. induction (upto l) as [|c t IH]; [reflexivity|]. cbn [flat_map]. rewrite forallb_app, IH, andb_true_r. destruct c; cbn; try reflexivity; [destruct (k_next g)|destruct (k_complete g)|destruct (k_error g)]; reflexivity.
Qed.
Lemma single_frames_ok : forall sync' sid st stack tr, sync' = true -> freach sync' resp_cfg st [stack] tr -> stream_ok (frames_of sid tr) = true.
Proof.
  intros sync' sid st stack tr -> R. destruct (deliveries_proof resp_cfg _ _ _ R) as [[d D] _]. rewrite frames_delivered. apply wf_frames. apply (wf_prefix _ d); rewrite <- D; [apply expected_wf|apply expected_dels].
Qed.
Lemma payloads_handed : forall sid g l, (payloads (frames_of sid (expected g l)) <= length (flat_map (fun c : fcall pay bytes => match c with FNext v => [v] | _ => [] end) l))%nat.
Proof.
  intros sid g l. assert (P : forall l, (payloads (frames_of sid (flat_map (delivers g) l)) <= length (flat_map (fun c : fcall pay bytes => match c with FNext v => [v] | _ => [] end) l))%nat).
  { induction l0 as [|c t IH]; [apply le_n|]. cbn [flat_map]. rewrite frames_app, payloads_app, app_length. destruct c; cbn [delivers]; try exact IH.
    - destruct (k_next g); cbn; lia.
    - destruct (k_complete g); exact IH.
    - destruct (k_error g); exact IH. }
  unfold expected. etransitivity; [apply P|]. clear. induction l as [|c t IH]; [apply le_n|]. cbn [upto]. destruct (closes c); cbn [flat_map]; rewrite !app_length; cbn [flat_map length]; lia.
Qed.
Lemma slice_frames : forall sid nested values st vs stack tr, sreach resp_cfg false nested values st vs stack tr ->
  stream_ok (frames_of sid tr) = true /\ (Z.of_nat (payloads (frames_of sid tr)) <= granted tr)%Z.
Proof.
  intros sid nested values st vs stack tr R. destruct (simulate _ _ _ _ _ _ _ _ R) as (f & _ & Rf). split; [exact (single_frames_ok true sid _ _ _ eq_refl Rf)|].
  destruct (slice_bounds_proof resp_cfg false nested (or_introl eq_refl) _ _ _ _ _ R) as (_ & B & _).
  assert (G := requested_granted resp_cfg false nested eq_refl _ _ _ _ _ R).
  destruct (deliveries_proof resp_cfg _ _ _ Rf) as [[d D] _].
  assert (P := payloads_handed sid resp_cfg (fcalls tr)). rewrite D, frames_app, payloads_app, <- frames_delivered in P.
  change (length (flat_map (fun c : fcall pay bytes => match c with FNext v => [v] | _ => [] end) (fcalls tr))) with (length (handed tr)) in P. lia.
Qed.
