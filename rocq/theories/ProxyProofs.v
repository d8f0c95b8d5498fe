(** Proofs about the requester's end of a stream. *)
From Coq Require Import List NArith ZArith Bool Lia.
From Verif Require Import Base FramesModel MonoModel FluxModel ProxyModel ProxySpec.
Import ListNotations.

Section Proofs.
Context (sync : bool) (g : fcfg) (r : request_frame) (has_in : bool).
Notation pstep := (pstep sync g r has_in).
Notation preach := (preach sync g r has_in).

(** Events without meaning for the credit. *)
Definition quiet (e : pevent) : bool :=
  match e with PV (VReqSrc _) | PV VCancelSrc | PSent _ | PCompleted => false | _ => true end.
Definition dull (e : fevent pay bytes) : bool := match e with VReqSrc _ | VCancelSrc => false | _ => true end.
Definition loud (it : fitem pay bytes) : bool := match it with FEmit true (VReqSrc _) | FEmit true VCancelSrc => true | _ => false end.

Lemma fstep_dull : forall st it st' its new evs, loud it = false -> fstep sync g st it = Some (st', its, new, evs) -> forallb dull evs = true.
Proof.
  intros st it st' its new evs Q X.
  destruct it as [|n|c|c|on e| | |n|n|n|sg|sg]; cbn [fstep] in X; try discriminate X.
  - destruct c; cbn in X; repeat match type of X with context [if ?b then _ else _] => destruct b end; try discriminate X; injection X as <- <- <- <-; reflexivity.
  - destruct c; cbn in X; try discriminate X; injection X as <- <- <- <-; reflexivity.
  - destruct on; [|injection X as <- <- <- <-; reflexivity].
    destruct e; cbn in Q; try discriminate Q; injection X as <- <- <- <-; reflexivity.
  - injection X as <- <- <- <-; reflexivity.
  - injection X as <- <- <- <-; reflexivity.
  - injection X as <- <- <- <-; reflexivity.
  - destruct sync; injection X as <- <- <- <-; reflexivity.
  - destruct (f_req st); [|discriminate X]. injection X as <- <- <- <-; reflexivity.
  - injection X as <- <- <- <-; reflexivity.
  - injection X as <- <- <- <-; reflexivity.
Qed.

Inductive pshape (st : pst) : pst -> list pevent -> Prop :=
| sh_quiet : forall st' evs, forallb quiet evs = true -> p_first st' = p_first st -> p_complete st' = p_complete st -> pshape st st' evs
| sh_late : forall n, p_complete st = true -> pshape st st [PV (VReqSrc n)]
| sh_first : forall n, p_complete st = false -> p_first st = true ->
    pshape st (mkP (p_fl st) false false) [PV (VReqSrc n); PSent (with_n r n)]
| sh_more : forall n, p_complete st = false -> p_first st = false -> pshape st st [PV (VReqSrc n); PSent (FRequestN (rf_stream_id r) (u32z n))]
| sh_cancel : pshape st st [PV VCancelSrc; PSent (FramesModel.FCancel (rf_stream_id r))]
| sh_done : pshape st (mkP (p_fl st) (p_first st) true) [PCompleted].

Lemma quiet_map : forall evs, forallb dull evs = true -> forallb quiet (map PV evs) = true.
Proof.
  induction evs as [|e t IH]; [reflexivity|]. cbn [forallb map]. rewrite andb_true_iff. intros [A B]. rewrite (IH B), andb_true_r. destruct e; reflexivity || discriminate A.
Qed.

Lemma pstep_shape : forall st it st' its new evs, pstep st it = Some (st', its, new, evs) -> pshape st st' evs.
Proof.
  intros st it st' its new evs X. destruct it as [it|c|].
  - destruct (loud it) eqn:L.
    + destruct it as [| | | |on e| | | | | | |]; try discriminate L. destruct on; [|discriminate L]. destruct e; try discriminate L; cbn [ProxyModel.pstep] in X.
      * destruct (p_complete st) eqn:C; [injection X as <- <- <- <-; apply sh_late; exact C|]. destruct (p_first st) eqn:F; injection X as <- <- <- <-; [apply sh_first|apply sh_more]; assumption.
      * injection X as <- <- <- <-. apply sh_cancel.
    + assert (Q : (exists fl evs', st' = mkP fl (p_first st) (p_complete st) /\ forallb dull evs' = true /\ (evs = map PV evs' \/ evs = PRegister :: map PV evs'))).
      { destruct it as [|n|c|c|on e| | |n|n|n|sg|sg]; try discriminate X.
        - assert (Y : exists p, fstep sync g (p_fl st) (FDo c) = Some p /\ (evs = map PV (snd p) \/ evs = PRegister :: map PV (snd p)) /\ st' = mkP (fst (fst (fst p))) (p_first st) (p_complete st)).
          { destruct c; cbn [ProxyModel.pstep] in X;
            match type of X with match ?m with _ => _ end = _ => destruct m as [[[[fl i] nw] ev]|]; [|discriminate X] end;
            injection X as <- <- <- <-; eexists; (split; [reflexivity|]); cbn; auto. }
          destruct Y as ([[[fl i] nw] ev] & Y & Z & W). exists fl, ev. cbn [fst snd] in Z, W. split; [exact W|]. split; [|exact Z]. exact (fstep_dull _ _ _ _ _ _ L Y).
        - cbn [ProxyModel.pstep] in X. destruct (fstep sync g (p_fl st) (FCommit c)) as [[[[fl i] nw] ev]|] eqn:Y; [|discriminate X]. injection X as <- <- <- <-. exists fl, ev. split; [reflexivity|]. split; [exact (fstep_dull _ _ _ _ _ _ L Y)|auto].
        - assert (X' : match fstep sync g (p_fl st) (FEmit on e) with
               | Some (fl, its, new, evs) => Some (mkP fl (p_first st) (p_complete st), map PI its, map (map PI) new, map PV evs)
               | None => None end = Some (st', its, new, evs)) by (destruct on; [destruct e; try discriminate L; exact X|exact X]).
          destruct (fstep sync g (p_fl st) (FEmit on e)) as [[[[fl i] nw] ev]|] eqn:Y; [|discriminate X']. injection X' as <- <- <- <-. exists fl, ev. split; [reflexivity|]. split; [exact (fstep_dull _ _ _ _ _ _ L Y)|auto].
        - cbn [ProxyModel.pstep] in X. destruct (fstep sync g (p_fl st) FAfter) as [[[[fl i] nw] ev]|] eqn:Y; [|discriminate X]. injection X as <- <- <- <-. exists fl, ev. split; [reflexivity|]. split; [exact (fstep_dull _ _ _ _ _ _ L Y)|auto].
        - cbn [ProxyModel.pstep] in X. destruct (fstep sync g (p_fl st) FHandle) as [[[[fl i] nw] ev]|] eqn:Y; [|discriminate X]. injection X as <- <- <- <-. exists fl, ev. split; [reflexivity|]. split; [exact (fstep_dull _ _ _ _ _ _ L Y)|auto].
        - cbn [ProxyModel.pstep] in X. destruct (fstep sync g (p_fl st) (FReq n)) as [[[[fl i] nw] ev]|] eqn:Y; [|discriminate X]. injection X as <- <- <- <-. exists fl, ev. split; [reflexivity|]. split; [exact (fstep_dull _ _ _ _ _ _ L Y)|auto].
        - cbn [ProxyModel.pstep] in X. destruct (fstep sync g (p_fl st) (FDoReq n)) as [[[[fl i] nw] ev]|] eqn:Y; [|discriminate X]. injection X as <- <- <- <-. exists fl, ev. split; [reflexivity|]. split; [exact (fstep_dull _ _ _ _ _ _ L Y)|auto].
        - cbn [ProxyModel.pstep] in X. destruct (fstep sync g (p_fl st) (FRunSrc n)) as [[[[fl i] nw] ev]|] eqn:Y; [|discriminate X]. injection X as <- <- <- <-. exists fl, ev. split; [reflexivity|]. split; [exact (fstep_dull _ _ _ _ _ _ L Y)|auto].
        - cbn [ProxyModel.pstep] in X. destruct (fstep sync g (p_fl st) (FFin sg)) as [[[[fl i] nw] ev]|] eqn:Y; [|discriminate X]. injection X as <- <- <- <-. exists fl, ev. split; [reflexivity|]. split; [exact (fstep_dull _ _ _ _ _ _ L Y)|auto].
        - cbn [ProxyModel.pstep] in X. destruct (fstep sync g (p_fl st) (FRunCbs sg)) as [[[[fl i] nw] ev]|] eqn:Y; [|discriminate X]. injection X as <- <- <- <-. exists fl, ev. split; [reflexivity|]. split; [exact (fstep_dull _ _ _ _ _ _ L Y)|auto]. }
      destruct Q as (fl & ev & -> & D & [->| ->]); apply sh_quiet; try reflexivity; cbn [forallb quiet andb]; apply quiet_map; exact D.
  - destruct c; cbn [ProxyModel.pstep] in X; injection X as <- <- <- <-; apply sh_quiet; reflexivity.
  - cbn [ProxyModel.pstep] in X. injection X as <- <- <- <-. apply sh_done.
Qed.

(** ** Frames *)
Definition completed (tr : list pevent) : bool := existsb (fun e => match e with PCompleted => true | _ => false end) tr.
Lemma until_app : forall a b, until_complete (a ++ b) = if completed a then until_complete a else a ++ until_complete b.
Proof.
  induction a as [|e a IH]; intros b; [reflexivity|]. destruct e; cbn [app until_complete completed existsb orb]; rewrite ?IH; fold (completed a); try (destruct (completed a); reflexivity).
Qed.
Lemma until_not : forall a, completed a = false -> until_complete a = a.
Proof.
  induction a as [|e a IH]; [reflexivity|]. destruct e; cbn [completed existsb orb until_complete]; intro X; try (f_equal; apply IH; exact X). discriminate X.
Qed.
Lemma completed_app : forall a b, completed (a ++ b) = completed a || completed b.
Proof. intros. apply existsb_app. Qed.
Lemma demands_app : forall a b, demands (a ++ b) = demands a ++ demands b.
Proof. intros. apply flat_map_app. Qed.
Lemma sent_app : forall a b, frames_sent (a ++ b) = frames_sent a ++ frames_sent b.
Proof. intros. apply flat_map_app. Qed.
Lemma quiet_facts : forall evs, forallb quiet evs = true -> completed evs = false /\ demands evs = [] /\ frames_sent evs = [] /\ source_cancels evs = 0%nat /\ until_complete evs = evs.
Proof.
  induction evs as [|e t IH]; [repeat split|]. cbn [forallb]. rewrite andb_true_iff. intros [A B]. destruct (IH B) as (I1 & I2 & I3 & I4 & I5).
  destruct e as [e|c|f| |]; try discriminate A; [destruct e; try discriminate A| |]; (split; [exact I1|]; split; [exact I2|]; split; [exact I3|]; split; [exact I4|]; cbn [until_complete]; rewrite I5; reflexivity).
Qed.

Record inv (st : pst) (tr : list pevent) : Prop := {
  i_complete : p_complete st = completed tr;
  i_first : p_first st = match demands (until_complete tr) with [] => true | _ => false end;
  i_credit : credit_frames tr = credit_owed r (demands (until_complete tr));
  i_cancel : cancel_frames tr = repeat (FramesModel.FCancel (rf_stream_id r)) (source_cancels tr) }.

Lemma owed_snoc : forall ns n, ns <> [] -> credit_owed r (ns ++ [n]) = credit_owed r ns ++ [FRequestN (rf_stream_id r) (u32z n)].
Proof. intros [|m ns] n H; [contradiction|]. cbn [credit_owed app]. rewrite map_app. reflexivity. Qed.

Lemma source_cancels_app : forall a b, source_cancels (a ++ b) = (source_cancels a + source_cancels b)%nat.
Proof. intros. unfold source_cancels. rewrite filter_app, app_length. reflexivity. Qed.
Lemma credit_app : forall a b, credit_frames (a ++ b) = credit_frames a ++ credit_frames b.
Proof. intros. unfold credit_frames. rewrite sent_app, filter_app. reflexivity. Qed.
Lemma cancel_app : forall a b, cancel_frames (a ++ b) = cancel_frames a ++ cancel_frames b.
Proof. intros. unfold cancel_frames. rewrite sent_app, filter_app. reflexivity. Qed.

Lemma inv_step : forall st tr st' evs, inv st tr -> pshape st st' evs -> inv st' (tr ++ evs).
Proof.
  intros st tr st' evs [IC IF ICr ICa] S. destruct S as [st' evs Q F C|n C|n C F|n C F| |].
  - destruct (quiet_facts evs Q) as (Q1 & Q2 & Q3 & Q4 & Q5).
    assert (D : demands (until_complete (tr ++ evs)) = demands (until_complete tr)).
    { rewrite until_app. destruct (completed tr) eqn:X; [reflexivity|]. rewrite Q5, demands_app, Q2, app_nil_r, until_not by exact X. reflexivity. }
    constructor.
    + rewrite C, IC, completed_app, Q1, orb_false_r. reflexivity.
    + rewrite F, IF, D. reflexivity.
    + rewrite D, credit_app. unfold credit_frames at 2. rewrite Q3. cbn [filter]. rewrite app_nil_r. exact ICr.
    + rewrite cancel_app, source_cancels_app, Q4, Nat.add_0_r. unfold cancel_frames at 2. rewrite Q3. cbn [filter]. rewrite app_nil_r. exact ICa.
  - assert (X : completed tr = true) by congruence.
    assert (D : demands (until_complete (tr ++ [PV (VReqSrc n)])) = demands (until_complete tr)) by (rewrite until_app, X; reflexivity).
    constructor.
    + rewrite completed_app, X. exact C.
    + rewrite D. exact IF.
    + rewrite D, credit_app. change (credit_frames [PV (VReqSrc n)]) with (@nil frame). rewrite app_nil_r. exact ICr.
    + rewrite cancel_app, source_cancels_app. change (cancel_frames [PV (VReqSrc n)]) with (@nil frame). rewrite app_nil_r, ICa. f_equal. unfold source_cancels at 3. cbn. lia.
  - assert (X : completed tr = false) by congruence.
    assert (U : demands (until_complete (tr ++ [PV (VReqSrc n); PSent (with_n r n)])) = demands (until_complete tr) ++ [n]).
    { rewrite until_app, X. cbn [until_complete]. rewrite demands_app, until_not by exact X. reflexivity. }
    rewrite F in IF. destruct (demands (until_complete tr)) as [|m ms] eqn:D; [|discriminate IF].
    constructor.
    + rewrite completed_app, X. reflexivity.
    + rewrite U. reflexivity.
    + rewrite U, credit_app, ICr. reflexivity.
    + rewrite cancel_app, source_cancels_app. change (cancel_frames [PV (VReqSrc n); PSent (with_n r n)]) with (@nil frame). rewrite app_nil_r, ICa. f_equal. unfold source_cancels at 3. cbn. lia.
  - assert (X : completed tr = false) by congruence.
    set (e2 := [PV (VReqSrc n); PSent (FRequestN (rf_stream_id r) (u32z n))]).
    assert (U : demands (until_complete (tr ++ e2)) = demands (until_complete tr) ++ [n]).
    { rewrite until_app, X. cbn [until_complete e2]. rewrite demands_app, until_not by exact X. reflexivity. }
    rewrite F in IF.
    constructor.
    + rewrite completed_app, X. exact C.
    + rewrite U, F. destruct (demands (until_complete tr)); reflexivity.
    + rewrite U, credit_app, ICr, owed_snoc; [reflexivity|]. intro Z. rewrite Z in IF. discriminate IF.
    + rewrite cancel_app, source_cancels_app. change (cancel_frames e2) with (@nil frame). rewrite app_nil_r, ICa. f_equal. unfold source_cancels at 3. cbn. lia.
  - set (e2 := [PV VCancelSrc; PSent (FramesModel.FCancel (rf_stream_id r))]).
    assert (D : demands (until_complete (tr ++ e2)) = demands (until_complete tr)).
    { rewrite until_app. destruct (completed tr) eqn:X; [reflexivity|]. cbn [until_complete e2]. rewrite demands_app, until_not by exact X. cbn. apply app_nil_r. }
    constructor.
    + rewrite completed_app, <- IC. cbn. rewrite orb_false_r. reflexivity.
    + rewrite D. exact IF.
    + rewrite D, credit_app. change (credit_frames e2) with (@nil frame). rewrite app_nil_r. exact ICr.
    + rewrite cancel_app, source_cancels_app, ICa, repeat_app. reflexivity.
  - assert (D : demands (until_complete (tr ++ [PCompleted])) = demands (until_complete tr)).
    { rewrite until_app. destruct (completed tr) eqn:X; [reflexivity|]. cbn [until_complete]. rewrite app_nil_r, until_not by exact X. reflexivity. }
    constructor.
    + rewrite completed_app. cbn. rewrite orb_true_r. reflexivity.
    + rewrite D. exact IF.
    + rewrite D, credit_app. change (credit_frames [PCompleted]) with (@nil frame). rewrite app_nil_r. exact ICr.
    + rewrite cancel_app, source_cancels_app. change (cancel_frames [PCompleted]) with (@nil frame). rewrite app_nil_r, ICa. f_equal. unfold source_cancels at 3. cbn. lia.
Qed.

Lemma reach_inv : forall st ths tr, preach st ths tr -> inv st tr.
Proof.
  intros st ths tr R. induction R as [n|st l stack rest tr c R IH Hc|st l stack rest tr R IH Hs|st l it stack rest tr st' its new evs R IH Hs].
  - constructor; reflexivity.
  - exact IH.
  - exact IH.
  - eapply inv_step; [exact IH|]. eapply pstep_shape. exact Hs.
Qed.
End Proofs.

(** ** After completion *)
Lemma after_app : forall a b, after_complete (a ++ b) = if completed a then after_complete a ++ b else after_complete b.
Proof. induction a as [|e a IH]; intros b; [reflexivity|]. destruct e; cbn [app after_complete completed existsb orb]; rewrite ?IH; reflexivity. Qed.
Lemma reach_after : forall sync g r has_in st ths tr, preach sync g r has_in st ths tr -> credit_frames (after_complete tr) = [].
Proof.
  intros sync g r has_in st ths tr R. induction R as [n|st l stack rest tr c R IH Hc|st l stack rest tr R IH Hs|st l it stack rest tr st' its new evs R IH Hs]; try assumption; [reflexivity|].
  destruct (reach_inv _ _ _ _ _ _ _ R) as [IC _ _ _]. rewrite after_app. destruct (pstep_shape _ _ _ _ _ _ _ _ _ _ Hs) as [st' evs Q _ _|n C|n C F|n C F| |]; destruct (completed tr) eqn:X; try congruence; try reflexivity.
  - rewrite credit_app, IH. unfold credit_frames. destruct (quiet_facts evs Q) as (_ & _ & -> & _). reflexivity.
  - assert (Z : after_complete evs = []). { destruct (quiet_facts evs Q) as (A & _ & _ & _ & B). clear - A. induction evs as [|e t IH]; [reflexivity|]. destruct e; cbn in *; auto. discriminate A. } rewrite Z. reflexivity.
  - rewrite credit_app, IH. reflexivity.
  - rewrite credit_app, IH. reflexivity.
  - rewrite credit_app, IH. reflexivity.
Qed.

(** ** Schedules *)
Section Exec.
Context (sync : bool) (g : fcfg) (r : request_frame) (has_in : bool).
Inductive pmove := QCall (n : nat) (c : pitem) | QRet (n : nat) | QStep (n : nat) | QGo (n : nat).
Definition pconf : Type := pst * list (list pitem) * list pevent.
Definition pat (n : nat) (ths : list (list pitem)) := match nth_error ths n with Some s => Some (firstn n ths, s, skipn (S n) ths) | None => None end.
Definition do_step (n : nat) (x : pconf) : option pconf :=
  let '(st, ths, tr) := x in
  match pat n ths with
  | Some (l, it :: s, q) => match pstep sync g r has_in st it with Some (st', its, new, evs) => Some (st', l ++ (its ++ s) :: q ++ new, tr ++ evs) | None => None end
  | _ => None
  end.
Fixpoint settle (fuel n : nat) (x : pconf) : pconf := match fuel with O => x | S k => match do_step n x with Some y => settle k n y | None => x end end.
Definition go_fuel : nat := 40.
Definition do_pmove (m : pmove) (x : pconf) : option pconf :=
  let '(st, ths, tr) := x in
  match m with
  | QCall n c => match pat n ths with Some (l, PI FUser :: s, q) => if side_call c then Some (st, l ++ (c :: PI FUser :: s) :: q, tr) else None | _ => None end
  | QRet n => match pat n ths with Some (l, PI FUser :: (i :: s), q) => Some (st, l ++ (i :: s) :: q, tr) | _ => None end
  | QStep n => do_step n x
  | QGo n => Some (settle go_fuel n x)
  end.
Fixpoint pexec (ms : list pmove) (x : pconf) : option pconf :=
  match ms with [] => Some x | m :: ms' => match do_pmove m x with Some y => pexec ms' y | None => None end end.
Lemma pat_spec : forall n ths l s q, pat n ths = Some (l, s, q) -> ths = l ++ s :: q.
Proof.
  intros n ths l s q H. unfold pat in H. destruct (nth_error ths n) as [x|] eqn:X; [|discriminate]. injection H as <- <- <-.
  revert n X. induction ths as [|a ths IH]; intros [|n] X; try discriminate; cbn in X |- *; [congruence|]. f_equal. apply IH. exact X.
Qed.
Definition ok (x : pconf) : Prop := let '(st, ths, tr) := x in preach sync g r has_in st ths tr.
Lemma step_sound : forall n x y, ok x -> do_step n x = Some y -> ok y.
Proof.
  intros n [[st ths] tr] y R D. cbn [do_step] in D. destruct (pat n ths) as [[[l [|it s]] q]|] eqn:A; try discriminate D. apply pat_spec in A. subst ths.
  destruct (pstep sync g r has_in st it) as [[[[st2 its] new] evs]|] eqn:S; [|discriminate D]. injection D as <-. eapply p_step; [exact R|exact S].
Qed.
Lemma settle_sound : forall k n x, ok x -> ok (settle k n x).
Proof. induction k as [|k IH]; intros n x R; [exact R|]. cbn [settle]. destruct (do_step n x) as [y|] eqn:D; [|exact R]. apply IH. exact (step_sound n x y R D). Qed.
Lemma pexec_sound : forall ms x y, ok x -> pexec ms x = Some y -> ok y.
Proof.
  induction ms as [|m ms IH]; intros x y R H; [cbn in H; congruence|]. cbn [pexec] in H. destruct (do_pmove m x) as [z|] eqn:D; [|discriminate H]. apply (IH z); [|exact H]. clear IH H.
  destruct m as [n c|n|n|n].
  - destruct x as [[st ths] tr]. cbn [do_pmove] in D. destruct (pat n ths) as [[[l [|it s]] q]|] eqn:A; try discriminate D. apply pat_spec in A. subst ths. destruct it as [it| |]; try discriminate D. destruct it; try discriminate D.
    destruct (side_call c) eqn:C; [|discriminate D]. injection D as <-. apply p_call; assumption.
  - destruct x as [[st ths] tr]. cbn [do_pmove] in D. destruct (pat n ths) as [[[l [|it s]] q]|] eqn:A; try discriminate D. apply pat_spec in A. subst ths. destruct it as [it| |]; try discriminate D. destruct it; try discriminate D.
    destruct s as [|i s]; [discriminate D|]. injection D as <-. eapply p_return; [exact R|discriminate].
  - destruct x as [[st ths] tr]. exact (step_sound n _ z R D).
  - assert (Y := settle_sound go_fuel n x R). destruct x as [[st ths] tr]. unfold do_pmove in D. remember (settle go_fuel n (st, ths, tr)) as w. assert (w = z) by congruence. subst z. exact Y.
Qed.
End Exec.
