(** Proofs for property C58. *)
From Coq Require Import List Arith ZArith Lia Bool.
From Verif Require Import MonoModel FluxModel FluxSpec FluxDemandSpec.
Import ListNotations.
Open Scope Z_scope.

Section Sums.
Context {A : Type}.
Implicit Types (w : A -> Z) (l : list A).
Lemma total_app : forall w l l', total w (l ++ l') = total w l + total w l'.
Proof. intros w l l'. induction l as [|a l IH]; [reflexivity|]. cbn. change (fold_right (fun a n => w a + n) 0 (l ++ l')) with (total w (l ++ l')). rewrite IH. unfold total. lia. Qed.
Lemma total_cons : forall w a l, total w (a :: l) = w a + total w l.
Proof. reflexivity. Qed.
Lemma total_nil : forall w, total w [] = 0.
Proof. reflexivity. Qed.
Lemma total_pos : forall w l, (forall a, 0 <= w a) -> 0 <= total w l.
Proof. intros w l H. induction l as [|a l IH]; [reflexivity|]. rewrite total_cons. specialize (H a). lia. Qed.
Lemma total_zero : forall w l, (forall a, In a l -> w a = 0) -> total w l = 0.
Proof. intros w l H. induction l as [|a l IH]; [reflexivity|]. rewrite total_cons, (H a (or_introl eq_refl)), IH; [reflexivity|]. intros b I. apply H. right. exact I. Qed.
Lemma total_exists : forall w l, 0 < total w l -> (forall a, 0 <= w a) -> exists a, In a l /\ 0 < w a.
Proof.
  intros w l. induction l as [|a l IH]; intros P H; [rewrite total_nil in P; lia|]. rewrite total_cons in P.
  destruct (Z.eq_dec (w a) 0) as [Z0|N]; [destruct IH as (b & I & Q); [lia|exact H|]; exists b; split; [right; exact I|exact Q]|].
  exists a. split; [left; reflexivity|]. specialize (H a). lia.
Qed.
Lemma total_in : forall w l a, In a l -> (forall a, 0 <= w a) -> w a <= total w l.
Proof.
  intros w l a I H. induction l as [|b l IH]; [contradiction|]. rewrite total_cons. assert (Q := H b). assert (Q' := total_pos w l H).
  destruct I as [->|I]; [lia|]. specialize (IH I). lia.
Qed.
End Sums.

Section Demand.
Context {T E : Type}.
Context (sync : bool) (g : fcfg).
Notation item := (fitem T E).
Implicit Types (it : item) (tr : list (fevent T E)).

Definition wreq it : Z := match it with FReq n => n | _ => 0 end.
Definition creq it : Z := match it with FReq n => 1 | _ => 0 end.
Definition wsrc it : Z := match it with FDoReq n | FRunSrc n | FEmit true (VReqSrc n) => n | _ => 0 end.
Definition csrc it : Z := match it with FDoReq n | FRunSrc n | FEmit true (VReqSrc n) => 1 | _ => 0 end.
Definition whan it : Z := match it with FHandle => 1 | _ => 0 end.
Definition won it : Z := match it with FCommit (FOnSubscribe _ _) => 1 | _ => 0 end.
Definition wnx it : Z := match it with FCommit (FNext _) | FAfter => 1 | _ => 0 end.
Definition wcn it : Z := match it with FCommit (FNext _) => 1 | _ => 0 end.
Definition wcl it : Z := match it with FCommit c => Z.b2z (closes c) | _ => 0 end.
Definition wbad it : Z :=
  match it with
  | FReq n => Z.b2z ((n <? 0) || automatic g && negb (n =? request_max))
  | FDoReq n | FRunSrc n | FEmit true (VReqSrc n) => Z.b2z (n <? 0)
  | FCommit (FOnSubscribe false _) | FEmit true (VCall _) => 1
  | _ => 0
  end.
Definition srcs tr : Z := total (fun e => match e with VReqSrc n => 1 | _ => 0 end) tr.
Definition closings tr : Z := total (fun e => match e with VCall c => Z.b2z (closes c) | _ => 0 end) tr.

Record inv (st : flst) (W : (item -> Z) -> Z) tr (k c : Z) : Prop := mkInv {
  i_c : 0 <= c /\ c + W wcn <= nexts tr;
  i_k : 0 <= k /\ (automatic g = false -> k = 0) /\ (automatic g = true -> k + W whan = subscribed tr);
  i_sub : subscribed tr = Z.b2z (f_sub st);
  i_n : f_n st + W wreq + c = requested tr + k * request_max;
  i_le : W wreq <= requested tr + k * request_max;
  i_bad : W wbad = 0;
  i_off : f_req st = false -> srcs tr = 0 /\ W csrc = 0 /\ W wsrc = 0;
  i_on : f_req st = true -> asked tr + W wsrc + W wreq = requested tr + k * request_max;
  i_ons : W won + Z.b2z (f_req st) <= onsubs tr;
  i_auto : automatic g = true -> W csrc + W creq + srcs tr <= k /\ W wreq = W creq * request_max;
  i_nx : 0 < W wnx -> 1 <= nexts tr;
  i_cl : (f_closed st = true -> 1 <= closings tr) /\ (0 < W wcl -> 1 <= closings tr);
  i_wel : welcomed tr -> 1 <= W won + Z.b2z (f_req st) }.

Lemma fcalls_app : forall tr tr', fcalls (tr ++ tr') = fcalls tr ++ fcalls tr'.
Proof. intros. unfold fcalls. apply flat_map_app. Qed.
Lemma closer_closings : forall tr, closer (fcalls tr) = None <-> closings tr = 0.
Proof.
  intro tr. induction tr as [|e tr IH]; [split; reflexivity|]. unfold closings. rewrite total_cons. fold (closings tr).
  assert (P : 0 <= closings tr) by (apply total_pos; intros [[]| | | | | | | |]; cbn; lia).
  destruct e; cbn [fcalls flat_map app]; try (rewrite IH; reflexivity). fold (fcalls tr). unfold closer in *. cbn [find].
  destruct (closes c) eqn:C; cbn [Z.b2z]; [split; intro X; [discriminate X|lia]|exact IH].
Qed.
Lemma welcomed_app : forall tr evs, welcomed (tr ++ evs) -> welcomed tr \/ (closings tr = 0 /\ exists c, In (VCall (FOnSubscribe true c)) evs).
Proof.
  intros tr evs (a & c & b & Q & N). apply app_eq_app in Q as (l & [[-> Q]|[-> Q]]).
  - destruct l as [|x l]; [right|left; injection Q as <- ->; exists a, c, l; auto].
    cbn in Q. split; [apply closer_closings; rewrite app_nil_r; exact N|]. exists c. rewrite <- Q. left. reflexivity.
  - right. rewrite closer_closings in N. unfold closings in N. rewrite total_app in N. fold (closings tr) in N. fold (closings l) in N.
    assert (0 <= closings tr) by (apply total_pos; intros [[]| | | | | | | |]; cbn; lia).
    assert (0 <= closings l) by (apply total_pos; intros [[]| | | | | | | |]; cbn; lia).
    split; [lia|]. exists c. rewrite Q. apply in_or_app. right. left. reflexivity.
Qed.

(** The hypotheses hold of every beginning. *)
Lemma answers_prefix : forall tr evs, answers (tr ++ evs) -> answers tr.
Proof.
  intros tr evs (A & B & C). unfold onsubs in *. rewrite total_app in A. fold (onsubs tr) in A. fold (onsubs evs) in A.
  assert (0 <= onsubs evs) by (apply total_pos; intros [[]| | | | | | | |]; cbn; lia). repeat split.
  - unfold onsubs in *. lia.
  - intros c I. apply (B c), in_or_app. left. exact I.
  - intros a v b Q. apply (C a v (b ++ evs)). rewrite Q, <- app_assoc. reflexivity.
Qed.
Lemma sensible_prefix : forall tr evs, sensible g (tr ++ evs) -> sensible g tr.
Proof.
  intros tr evs (A & B). split; [intros n I; apply A, in_or_app; left; exact I|]. intro X. destruct (B X) as (B1 & B2). split; [intros n I; apply (B1 n), in_or_app; left; exact I|].
  unfold nexts in *. rewrite total_app in B2. assert (0 <= total (fun e => match e with VCall (FNext _) => 1 | _ => 0 end) evs) by (apply total_pos; intros [[]| | | | | | | |]; cbn; lia). lia.
Qed.
Lemma nexts_srcs : forall tr, answers tr -> 1 <= nexts tr -> 1 <= srcs tr.
Proof.
  intros tr (_ & _ & A) N. unfold nexts in N. destruct (total_exists _ tr ltac:(apply Z.lt_le_trans with 1; [lia|exact N])) as (e & I & P); [intros [[]| | | | | | | |]; cbn; lia|].
  destruct e as [[]| | | | | | | |]; try (cbn in P; lia). apply in_split in I as (a & b & Q). destruct (A a v b Q) as (n & I).
  change 1 with ((fun e : fevent T E => match e with VReqSrc _ => 1 | _ => 0 end) (VReqSrc n)). apply total_in; [rewrite Q; apply in_or_app; left; exact I|intros [[]| | | | | | | |]; cbn; lia].
Qed.
Lemma srcs_asked : forall tr, srcs tr = 0 -> asked tr = 0.
Proof.
  intros tr Z0. apply total_zero. intros e I. destruct e; try reflexivity. assert (X : 1 <= srcs tr); [|lia].
  change 1 with ((fun e : fevent T E => match e with VReqSrc _ => 1 | _ => 0 end) (VReqSrc n)). apply total_in; [exact I|intros [[]| | | | | | | |]; cbn; lia].
Qed.
Lemma auto_requested : forall tr, sensible g tr -> automatic g = true -> requested tr = 0.
Proof.
  intros tr (_ & S) X. destruct (S X) as (N & _). apply total_zero. intros e I. destruct e as [[]| | | | | | | |]; try reflexivity. destruct (N n I).
Qed.

Definition counted (w : item -> Z) : Prop := In w [creq; csrc; whan; won; wnx; wcl; wbad; wcn].
Definition used (w : item -> Z) : Prop := counted w \/ In w [wreq; wsrc].
Ltac mem := unfold used, counted; cbn [In]; tauto.
Lemma counted_pos : forall w it, counted w -> 0 <= w it.
Proof.
  intros w it C. repeat (destruct C as [<-|C]; [destruct it as [| |c|c|[] [c| | | | | | | |]| | |n|n|n| |]; cbn; try destruct c; cbn; try lia; try (destruct request; lia); try (destruct ((n <? 0) || automatic g && negb (n =? request_max)); cbn; lia); try (destruct (n <? 0); cbn; lia)|]). contradiction.
Qed.

Lemma inv_init : forall W, (forall w, used w -> W w = 0) -> inv flux_create W [] 0 0.
Proof.
  intros W Z0.
  assert (Z1 := Z0 wreq ltac:(mem)). assert (Z2 := Z0 creq ltac:(mem)). assert (Z3 := Z0 wsrc ltac:(mem)). assert (Z4 := Z0 csrc ltac:(mem)).
  assert (Z5 := Z0 whan ltac:(mem)). assert (Z6 := Z0 won ltac:(mem)). assert (Z7 := Z0 wnx ltac:(mem)). assert (Z8 := Z0 wcl ltac:(mem)).
  assert (Z9 := Z0 wbad ltac:(mem)). assert (Z10 := Z0 wcn ltac:(mem)). clear Z0. constructor.
  13: { intros (a & c & b & Q & _). destruct a; discriminate Q. }
  all: rewrite ?Z1, ?Z2, ?Z3, ?Z4, ?Z5, ?Z6, ?Z7, ?Z8, ?Z9, ?Z10; cbn; intros; repeat split; intros; try discriminate; lia.
Qed.
Lemma inv_ext : forall st (W W' : (item -> Z) -> Z) tr k c, (forall w, used w -> W w = W' w) -> inv st W tr k c -> inv st W' tr k c.
Proof.
  intros st W W' tr k c Z0 I.
  assert (Z1 := Z0 wreq ltac:(mem)). assert (Z2 := Z0 creq ltac:(mem)). assert (Z3 := Z0 wsrc ltac:(mem)). assert (Z4 := Z0 csrc ltac:(mem)).
  assert (Z5 := Z0 whan ltac:(mem)). assert (Z6 := Z0 won ltac:(mem)). assert (Z7 := Z0 wnx ltac:(mem)). assert (Z8 := Z0 wcl ltac:(mem)).
  assert (Z9 := Z0 wbad ltac:(mem)). assert (Z10 := Z0 wcn ltac:(mem)). clear Z0. destruct I. constructor;
  rewrite <- ?Z1, <- ?Z2, <- ?Z3, <- ?Z4, <- ?Z5, <- ?Z6, <- ?Z7, <- ?Z8, <- ?Z9, <- ?Z10; assumption.
Qed.

Ltac cnt := cbn [total fold_right wreq creq wsrc csrc whan won wnx wcl wbad wcn closes Z.b2z f_sub f_closed f_n f_req set_closed set_n set_signal set_cbs concat app] in *.
Ltac split_all := repeat match goal with H : _ /\ _ |- _ => destruct H | H : _ \/ _ |- _ => destruct H as [H|H] end.
Ltac fin kk cc := exists kk, cc; cnt; split_all; try discriminate; subst; cnt; constructor;
  try match goal with H : welcomed ?x -> _ |- welcomed ?x -> _ => let Wel := fresh in intro Wel; specialize (H Wel); split_all end;
  repeat match goal with H : ?x (?a ++ ?b) = _ |- context [?x (?a ++ ?b)] => rewrite H end;
  cbn [total fold_right wreq creq wsrc csrc whan won wnx wcl wbad wcn closes Z.b2z f_sub f_closed f_n f_req set_closed set_n set_signal set_cbs concat app];
  repeat match goal with |- _ /\ _ => split end; intros; repeat match goal with |- _ /\ _ => split end; try discriminate;
  try match goal with H : ?b = true, H' : ?b = false |- _ => rewrite H in H'; discriminate H' end;
  repeat match goal with H : ?b = true, I : ?b = true -> _ |- _ => specialize (I H) | I : true = true -> _ |- _ => specialize (I eq_refl) end;
  repeat match goal with |- context [if ?b then 0 else 0] => destruct b end; change request_max with 2147483647 in *; 
  try solve [repeat match goal with H : ?A -> ?B |- _ => match type of A with Prop => clear H end end; lia]; try lia.

Definition step_inv st it st' its new evs : Prop :=
  forall (R : (item -> Z) -> Z) tr k c, (forall w, counted w -> 0 <= R w) -> answers (tr ++ evs) -> sensible g (tr ++ evs) ->
  inv st (fun w => w it + R w) tr k c ->
  exists k' c', inv st' (fun w => total w its + R w + total w (concat new)) (tr ++ evs) k' c'.

Lemma step_ok : forall st it st' its new evs, fstep sync g st it = Some (st', its, new, evs) -> step_inv st it st' its new evs.
Proof.
  intros st it st' its new evs S R tr k c P A Se [IC [IK1 [IK2 IK3]] IS IN IL IB IOff IOn IOns IA INx [ICl1 ICl2] IW].
  assert (P1 := P creq ltac:(mem)). assert (P2 := P csrc ltac:(mem)). assert (P3 := P whan ltac:(mem)).
  assert (P4 := P won ltac:(mem)). assert (P5 := P wnx ltac:(mem)). assert (P6 := P wcl ltac:(mem)). assert (P7 := P wbad ltac:(mem)). assert (P8 := P wcn ltac:(mem)).
  assert (A0 := answers_prefix _ _ A). assert (S0 := sensible_prefix _ _ Se).
  assert (Nx := nexts_srcs tr A0). assert (As := srcs_asked tr). assert (Rq := auto_requested tr S0).
  assert (PS : 0 <= srcs tr) by (apply total_pos; intros [[]| | | | | | | |]; cbn; lia).
  assert (PC : 0 <= closings tr) by (apply total_pos; intros [[]| | | | | | | |]; cbn; lia).
  assert (M : request_max = 2147483647) by reflexivity.
  assert (We : welcomed (tr ++ evs) -> 1 <= won it + R won + Z.b2z (f_req st) \/
    closings tr = 0 /\ 1 <= total (fun e => match e with VCall (FOnSubscribe true _) => 1 | _ => 0 end) evs).
  { intro We. destruct (welcomed_app _ _ We) as [We'|(We' & d & I)]; [left; apply IW, We'|right]. split; [exact We'|].
    apply (total_in (fun e => match e with VCall (FOnSubscribe true _) => 1 | _ => 0 end) evs _ I). intros [[]| | | | | | | |]; cbn; try lia. destruct request; lia. }
  clear IW.
  assert (Ap1 : requested (tr ++ evs) = requested tr + total (fun e => match e with VCall (FRequest n) => n | _ => 0 end) evs) by apply total_app.
  assert (Ap2 : asked (tr ++ evs) = asked tr + total (fun e => match e with VReqSrc n => n | _ => 0 end) evs) by apply total_app.
  assert (Ap3 : nexts (tr ++ evs) = nexts tr + total (fun e => match e with VCall (FNext _) => 1 | _ => 0 end) evs) by apply total_app.
  assert (Ap4 : onsubs (tr ++ evs) = onsubs tr + total (fun e => match e with VCall (FOnSubscribe _ _) => 1 | _ => 0 end) evs) by apply total_app.
  assert (Ap5 : subscribed (tr ++ evs) = subscribed tr + total (fun e => match e with VCall FSubscribe => 1 | _ => 0 end) evs) by apply total_app.
  assert (Ap6 : srcs (tr ++ evs) = srcs tr + total (fun e => match e with VReqSrc n => 1 | _ => 0 end) evs) by apply total_app.
  assert (Ap7 : closings (tr ++ evs) = closings tr + total (fun e => match e with VCall c => Z.b2z (closes c) | _ => 0 end) evs) by apply total_app.
  assert (IAu : (automatic g = true /\ k + (whan it + R whan) = subscribed tr /\ csrc it + R csrc + (creq it + R creq) + srcs tr <= k /\
      wreq it + R wreq = (creq it + R creq) * request_max /\ requested tr = 0 /\ (forall n, ~ In (VCall (FRequest n)) (tr ++ evs)) /\ nexts (tr ++ evs) < request_max) \/ (automatic g = false /\ k = 0)).
  { destruct (automatic g) eqn:X; [left|right]; [|auto]. destruct Se as (_ & Se). destruct (Se X) as (Se1 & Se2). destruct (IA eq_refl) as (IA1 & IA2). auto 10. }
  assert (IFr : (f_req st = true /\ asked tr + (wsrc it + R wsrc) + (wreq it + R wreq) = requested tr + k * request_max) \/
      (f_req st = false /\ srcs tr = 0 /\ csrc it + R csrc = 0 /\ wsrc it + R wsrc = 0)).
  { destruct (f_req st); [left|right]; auto. }
  assert (Pit := counted_pos wbad it ltac:(mem)).
  clear IA IK2 IK3 IOff IOn Rq S0 P. destruct A as (A1 & A2 & A3). rewrite Ap4 in A1. rewrite Ap3 in IAu. destruct Se as (Se & _).
  destruct st as [fs fc fn fr fca fsg fcb fno]. destruct it as [| n | c0 | c0 | on e | | | n | n | n | s | s]; cbn [fstep f_sub f_closed f_n f_req f_can f_signal f_cbs f_notified] in S.
  - discriminate S.
  - discriminate S.
  - destruct c0 as [| | v | | e | r0 cn | n | |].
    + destruct fs eqn:Fs; [discriminate S|]. injection S as <- <- <- <-. fin k c.
    + destruct (fs && fc) eqn:X; injection S as <- <- <- <-; fin k c.
    + destruct (negb fs) eqn:X; [discriminate S|]. destruct fc eqn:Y; injection S as <- <- <- <-; fin k c.
    + destruct (negb fs) eqn:X; [discriminate S|]. destruct fc eqn:Y; injection S as <- <- <- <-; fin k c.
    + destruct (negb fs) eqn:X; [discriminate S|]. destruct fc eqn:Y; injection S as <- <- <- <-; fin k c.
    + destruct (negb fs) eqn:X; [discriminate S|]. destruct r0; [|destruct (A2 cn); apply in_or_app; right; destruct fc; injection S as <- <- <- <-; left; reflexivity].
      destruct fc eqn:Y; injection S as <- <- <- <-; fin k c.
    + destruct (negb fs) eqn:X; [discriminate S|]. injection S as <- <- <- <-. assert (Nn := Se n ltac:(apply in_or_app; right; left; reflexivity)).
      destruct IAu as [(Au & _ & _ & _ & _ & Q & _)|(Au & ->)]; [destruct (Q n); apply in_or_app; right; left; reflexivity|].
      assert (Nb : Z.b2z ((n <? 0) || automatic g && negb (n =? 2147483647)) = 0) by (rewrite Au; destruct (Z.ltb_spec n 0); [lia|reflexivity]). fin 0 c.
    + destruct (negb fs) eqn:X; [discriminate S|]. injection S as <- <- <- <-. fin k c.
    + destruct (negb fs) eqn:X; [discriminate S|]. injection S as <- <- <- <-. fin k c.
  - destruct c0 as [| | v | | e | r0 cn | n | |]; try discriminate S.
    + injection S as <- <- <- <-. fin k (c+1).
    + injection S as <- <- <- <-. fin k c.
    + injection S as <- <- <- <-. fin k c.
    + destruct r0; [|exfalso; cbn [wbad] in IB; lia].
      assert (Nf : 0 < fn -> Z.b2z (fn <? 0) = 0) by (intro; destruct (Z.ltb_spec fn 0); [lia|reflexivity]).
      destruct (Z.ltb_spec 0 fn); [specialize (Nf H)|]; injection S as <- <- <- <-; fin k c.
  - destruct on; [|injection S as <- <- <- <-; destruct e; fin k c]. destruct e; injection S as <- <- <- <-; fin k c.
  - destruct (Z.eqb_spec fn 0); injection S as <- <- <- <-; fin k c.
  - assert (Ag : automatic g = negb (k_norequest g) && negb (k_request g)) by reflexivity.
    destruct (k_norequest g); [injection S as <- <- <- <-; cbn in Ag; fin k c|].
    destruct (k_request g); [injection S as <- <- <- <-; cbn in Ag; fin k c|injection S as <- <- <- <-; cbn in Ag; fin (k+1) c; change (Z.b2z ((2147483647 <? 0) || automatic g && negb (2147483647 =? 2147483647))) with (Z.b2z (automatic g && false)); rewrite andb_false_r; change (Z.b2z false) with 0; lia].
  - assert (Nb : (n <? 0) || automatic g && negb (n =? request_max) = false).
    { cbn [wbad] in IB. destruct ((n <? 0) || automatic g && negb (n =? request_max)); [cbn [Z.b2z] in IB; lia|reflexivity]. }
    assert (Nz : Z.b2z ((n <? 0) || automatic g && negb (n =? 2147483647)) = 0) by (change 2147483647 with request_max; rewrite Nb; reflexivity).
    apply orb_false_iff in Nb as (Nb & Nm). assert (Nq : Z.b2z (n <? 0) = 0) by (rewrite Nb; reflexivity). apply Z.ltb_ge in Nb. assert (Nm' : automatic g = false \/ n = 2147483647).
    { apply andb_false_iff in Nm as [Nm|Nm]; [left; exact Nm|right]. apply negb_false_iff, Z.eqb_eq in Nm. exact Nm. } clear Nm.
    injection S as <- <- <- <-. destruct fr eqn:X; fin k c.
  - destruct sync; injection S as <- <- <- <-; fin k c.
  - destruct fr eqn:X; [|discriminate S]. injection S as <- <- <- <-. fin k c.
  - injection S as <- <- <- <-. fin k c.
  - assert (Zr : forall w, counted w \/ In w [wreq; wsrc] -> total w (map (fun k0 => FEmit true (VNotify k0 s)) fcb) = 0).
    { intros w Cw. apply total_zero. intros a I. apply in_map_iff in I as (x & <- & _). unfold counted in Cw. cbn [In] in Cw.
      repeat match goal with H : _ \/ _ |- _ => destruct H end; subst; try contradiction; reflexivity. }
    assert (Z1 := Zr wreq ltac:(mem)). assert (Z2 := Zr creq ltac:(mem)). assert (Z3 := Zr wsrc ltac:(mem)). assert (Z4 := Zr csrc ltac:(mem)).
    assert (Z5 := Zr whan ltac:(mem)). assert (Z6 := Zr won ltac:(mem)). assert (Z7 := Zr wnx ltac:(mem)). assert (Z8 := Zr wcl ltac:(mem)).
    assert (Z9 := Zr wbad ltac:(mem)). assert (Z10 := Zr wcn ltac:(mem)). clear Zr.
    injection S as <- <- <- <-. fin k c.
Qed.

Lemma user_used : forall u w, is_user u = true -> used w -> w u = 0.
Proof. intros u w U X. destruct u; try discriminate U; unfold used, counted in X; cbn [In] in X; repeat match goal with H : _ \/ _ |- _ => destruct H end; subst; try contradiction; reflexivity. Qed.
Lemma do_used : forall c w, used w -> w (FDo c) = 0.
Proof. intros c w X. unfold used, counted in X; cbn [In] in X; repeat match goal with H : _ \/ _ |- _ => destruct H end; subst; try contradiction; reflexivity. Qed.
Lemma total_split : forall (w : item -> Z) l s r, total w (concat (l ++ s :: r)) = total w s + (total w (concat l) + total w (concat r)).
Proof. intros. rewrite concat_app, total_app. cbn [concat]. rewrite total_app. lia. Qed.

Theorem reach_inv : forall st ths tr, freach sync g st ths tr -> answers tr -> sensible g tr ->
  exists k c, inv st (fun w => total w (concat ths)) tr k c.
Proof.
  intros st ths tr R. induction R as [n|st l u stack r tr c0 R IH U|st l u stack r tr R IH U NE|st l it stack r tr st' its new evs R IH S]; intros A Se.
  - exists 0, 0. apply inv_init. intros w X. induction n as [|n IH]; [reflexivity|]. cbn [repeat concat app]. rewrite total_cons, IH, (user_used FUser w eq_refl X). reflexivity.
  - destruct (IH A Se) as (k & c & I). exists k, c. eapply inv_ext; [|exact I]. intros w X. cbn beta. rewrite !total_split, !total_cons, (do_used c0 w X). lia.
  - destruct (IH A Se) as (k & c & I). exists k, c. eapply inv_ext; [|exact I]. intros w X. cbn beta. rewrite !total_split, total_cons, (user_used u w U X). lia.
  - destruct (IH (answers_prefix _ _ A) (sensible_prefix _ _ Se)) as (k & c & I).
    destruct (step_ok st it st' its new evs S (fun w => total w stack + (total w (concat l) + total w (concat r))) tr k c) as (k' & c' & I'); [|exact A|exact Se| |].
    + intros w X. assert (0 <= total w stack) by (apply total_pos; intro; apply counted_pos, X). assert (0 <= total w (concat l)) by (apply total_pos; intro; apply counted_pos, X).
      assert (0 <= total w (concat r)) by (apply total_pos; intro; apply counted_pos, X). lia.
    + eapply inv_ext; [|exact I]. intros w X. cbn beta. rewrite total_split, total_cons. lia.
    + exists k', c'. eapply inv_ext; [|exact I']. intros w X. cbn beta. rewrite total_split, total_app, concat_app, total_app. lia.
Qed.

Lemma requested_pos : forall tr, sensible g tr -> 0 <= requested tr.
Proof.
  intros tr (S & _). unfold requested. induction tr as [|e tr IH]; [reflexivity|]. rewrite total_cons.
  assert (X : 0 <= total (fun e => match e with VCall (FRequest n) => n | _ => 0 end) tr) by (apply IH; intros n I; apply S; right; exact I).
  destruct e as [[]| | | | | | | |]; try lia. specialize (S n (or_introl eq_refl)). lia.
Qed.
Lemma good_pos : forall l : list item, total wbad l = 0 -> 0 <= total wreq l /\ 0 <= total wsrc l.
Proof.
  intros l. induction l as [|it l IH]; [cbn; lia|]. rewrite !total_cons. intro Q.
  assert (P1 := counted_pos wbad it ltac:(mem)). assert (P2 : 0 <= total wbad l) by (apply total_pos; intro; apply counted_pos; mem).
  destruct IH as (I1 & I2); [lia|]. assert (Q' : wbad it = 0) by lia. clear Q P1 P2.
  assert (X : 0 <= wreq it /\ 0 <= wsrc it); [|lia].
  destruct it as [| |c|c|[] [c| | | | | |n| |]| | |n|n|n| |]; cbn in *; try lia; try (destruct (Z.ltb_spec n 0); [discriminate Q'|lia]).
Qed.

Theorem at_most : forall st ths tr, freach sync g st ths tr -> answers tr -> sensible g tr -> asked tr <= demand g tr.
Proof.
  intros st ths tr R A Se. destruct (reach_inv st ths tr R A Se) as (k & c & I). destruct I as [_ (K1 & K2 & K3) IS _ _ IB IOff IOn _ _ _ _ _].
  destruct (good_pos _ IB) as (G1 & G2). assert (Rp := requested_pos tr Se). unfold demand.
  assert (Sp : 0 <= subscribed tr) by (rewrite IS; destruct (f_sub st); cbn; lia). change request_max with 2147483647 in *.
  destruct (f_req st); [specialize (IOn eq_refl)|destruct (IOff eq_refl) as (IOff' & _); rewrite (srcs_asked tr IOff')].
  - destruct (automatic g); [specialize (K3 eq_refl)|rewrite (K2 eq_refl) in *; lia].
    assert (H : 0 <= total whan (concat ths)) by (apply total_pos; intro; apply counted_pos; mem). lia.
  - destruct (automatic g); lia.
Qed.
Theorem at_rest : forall st ths tr, freach sync g st ths tr -> answers tr -> sensible g tr -> forallb is_user (concat ths) = true ->
  (welcomed tr -> asked tr = demand g tr) /\ (onsubs tr = 0 -> asked tr = 0).
Proof.
  intros st ths tr R A Se U. destruct (reach_inv st ths tr R A Se) as (k & c & I).
  assert (Z0 : forall w, used w -> total w (concat ths) = 0).
  { intros w X. apply total_zero. intros it J. apply user_used; [|exact X]. rewrite forallb_forall in U. apply U, J. }
  destruct I as [_ (K1 & K2 & K3) _ _ _ _ IOff IOn IOns _ _ _ IW].
  rewrite (Z0 wreq), (Z0 wsrc) in IOn by mem. rewrite (Z0 won) in IOns, IW by mem. rewrite (Z0 whan) in K3 by mem. split.
  - intro We. specialize (IW We). destruct (f_req st); [|cbn in IW; lia]. specialize (IOn eq_refl). unfold demand.
    destruct (automatic g); [rewrite <- (K3 eq_refl); lia|rewrite (K2 eq_refl) in IOn; lia].
  - intro N. destruct (f_req st); [cbn in IOns; lia|]. apply srcs_asked, (IOff eq_refl).
Qed.
End Demand.
