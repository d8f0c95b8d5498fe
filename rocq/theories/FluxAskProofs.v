(** Proofs for property C66. *)
From Coq Require Import List Arith ZArith Lia Bool.
From Verif Require Import MonoModel MonoProofs FluxModel FluxSpec FluxDemandSpec FluxDemandProofs FluxAskSpec.
From Verif Require FluxProofs.
Import ListNotations.
Open Scope Z_scope.

Ltac step_cases S := match type of S with fstep ?sy ?g ?st ?it = _ =>
  destruct st as [fs fc fn fr fca fsg fcb fno]; destruct it as [| n | c0 | c0 | on e | | | n | n | n | s | s]; cbn [fstep f_sub f_closed f_n f_req f_can f_signal f_cbs f_notified] in S;
  [discriminate S|discriminate S|
   destruct c0 as [| | v | | e | r0 cn | n | |];
     [destruct fs; [discriminate S|]|destruct (fs && fc)|destruct (negb fs) eqn:Fs; [discriminate S|]; destruct fc|destruct (negb fs) eqn:Fs; [discriminate S|]; destruct fc|destruct (negb fs) eqn:Fs; [discriminate S|]; destruct fc
     |destruct (negb fs) eqn:Fs; [discriminate S|]; destruct fc|destruct (negb fs) eqn:Fs; [discriminate S|]|destruct (negb fs) eqn:Fs; [discriminate S|]|destruct (negb fs) eqn:Fs; [discriminate S|]]
   |destruct c0 as [| | v | | e | r0 cn | n | |]; try discriminate S; [| | |destruct (0 <? fn)]
   |destruct on; [destruct e as [c0|v| |e|s| |n| |k s]|]
   |destruct (Z.eqb_spec fn 0)
   |destruct (k_norequest g) eqn:Knr; [|destruct (k_request g) eqn:Kr]
   |
   |try (is_var sy; destruct sy)
   |destruct fr; [|discriminate S]
   |
   |]; injection S as <- <- <- <- end.


Section Ask.
Context {T E : Type} (sync : bool) (g : fcfg).
Notation item := (fitem T E).
Implicit Types (it : item) (tr : list (fevent T E)).

Definition wv it : Z := match it with FEmit true (VNext _) => 1 | _ => 0 end.
(** Items that lead to OnRequest, or to more demand. *)
Definition wp it : Z := match it with FAfter | FHandle | FEmit true VOnRequest | FReq _ => 1 | _ => 0 end.
Lemma wp_pos : forall it, 0 <= wp it.
Proof. intros [| | | |[] []| | | | | | |]; cbn; lia. Qed.
Definition emits it : Prop := match it with FEmit _ (VCall _) => False | _ => True end.

(** Where every requested item is. *)
Definition balance st (l : list item) tr : Prop := f_n st + total wreq l + total wv l + items tr = requested tr.
Ltac apps := unfold balance, items, requested in *; rewrite ?total_app, ?total_cons, ?total_nil in *.
Lemma notes_zero : forall (w : item -> Z) s (l : list nat), (forall k, w (FEmit true (VNotify k s)) = 0) -> total w (map (fun k => FEmit true (VNotify k s)) l) = 0.
Proof. intros w s l Z0. apply total_zero. intros a I. apply in_map_iff in I as (x & <- & _). apply Z0. Qed.
Ltac zs := cbn [total fold_right wreq wv f_n f_sub set_closed set_n set_signal set_cbs concat emits app] in *; change request_max with 2147483647 in *.
Lemma balance_step : asks_more g -> forall st it st' its new evs l tr, fstep sync g st it = Some (st', its, new, evs) -> emits it ->
  balance st (it :: l) tr -> balance st' (its ++ l ++ concat new) (tr ++ evs).
Proof.
  intros (K1 & K2 & K3) st it st' its new evs l tr S Em B. step_cases S; try congruence;
  apps; rewrite ?(notes_zero wreq), ?(notes_zero wv) by reflexivity; zs; rewrite ?K1 in *; zs; try lia; try contradiction;
  repeat match goal with |- context [if ?b then _ else _] => destruct b end; zs; lia.
Qed.
Lemma emits_step : forall st it st' its new evs, fstep sync g st it = Some (st', its, new, evs) -> Forall emits (its ++ concat new).
Proof.
  intros st it st' its new evs S. step_cases S; cbn [concat]; rewrite ?app_nil_r; try (repeat constructor; fail).
  - destruct fr; repeat constructor.
  - apply Forall_forall. intros a I. apply in_map_iff in I as (x & <- & _). exact I.
Qed.
Lemma reach_balance : asks_more g -> forall st ths tr, freach sync g st ths tr -> balance st (concat ths) tr /\ Forall emits (concat ths).
Proof.
  intros K st ths tr R. induction R as [n|st l u stack r tr c0 R [B F] U|st l u stack r tr R [B F] U NE|st l it stack r tr st' its new evs R [B F] S].
  - split; [|induction n as [|n IH]; cbn; [constructor|constructor; [exact I|exact IH]]]. unfold balance. cbn. rewrite !total_zero; [reflexivity|..]; intros a I; apply in_concat in I as (x & Hx & I); apply repeat_spec in Hx; subst x; destruct I as [<-|[]]; reflexivity.
  - split; [|rewrite concat_app in *; cbn [concat app] in *; apply Forall_app in F as [F1 F2]; apply Forall_app; split; [exact F1|constructor; [exact Logic.I|exact F2]]].
    unfold balance in *. rewrite !total_split, !total_cons in *. cbn [wreq wv]. lia.
  - split; [|rewrite concat_app in *; cbn [concat app] in *; apply Forall_app in F as [F1 F2]; apply Forall_app; split; [exact F1|inversion F2; assumption]].
    unfold balance in *. rewrite !total_split, !total_cons in *. destruct u; try discriminate U; cbn [wreq wv] in *; lia.
  - rewrite concat_app in F. cbn [concat app] in F. apply Forall_app in F as [F1 F2]. inversion F2 as [|? ? F3 F4]; subst. split.
    + assert (B' : balance st (it :: stack ++ concat l ++ concat r) tr).
      { unfold balance in *. rewrite !total_split, !total_cons, !total_app in *. lia. }
      assert (Q := balance_step K _ _ _ _ _ _ _ _ S F3 B'). unfold balance in *. rewrite !total_split, concat_app, !total_app in *. lia.
    + assert (Q := emits_step _ _ _ _ _ _ S). apply Forall_app in Q as [Q1 Q2]. apply Forall_app in F4 as [F4 F5]. rewrite concat_app. cbn [concat]. rewrite concat_app. repeat (apply Forall_app; split); assumption.
Qed.

(** ** Not starved *)
Definition calm (e : fevent T E) : Prop := match e with VNext _ | VCall (FRequest _) => False | _ => True end.
Definition lastask tr : Prop := exists a b, tr = a ++ VOnRequest :: b /\ Forall calm b.
Lemma lastask_app : forall tr evs, lastask tr -> Forall calm evs -> lastask (tr ++ evs).
Proof. intros tr evs (a & b & -> & F) F'. exists a, (b ++ evs). rewrite <- app_assoc. split; [reflexivity|]. apply Forall_app. split; assumption. Qed.
Lemma lastask_asked : forall tr, lastask tr -> asked_for_more tr.
Proof.
  intros tr (a & b & -> & F). exists a, b. split; [reflexivity|]. unfold requested, items. rewrite !total_app, !total_cons.
  rewrite !(total_zero _ b); [lia|..]; intros e I; rewrite Forall_forall in F; assert (Q := F e I); destruct e as [[]| | | | | | | |]; try contradiction; reflexivity.
Qed.
Fixpoint chained (s : list item) : Prop :=
  match s with [] => True | FEmit _ (VNext _) :: s' => (match s' with FAfter :: _ => True | _ => False end) /\ chained s' | _ :: s' => chained s' end.
Definition ask_ok st (l : list item) tr : Prop := f_sub st = true -> f_n st = 0 -> 0 < total wp l \/ lastask tr.
Definition positive it : Prop := match it with FReq n => 0 < n | _ => True end.

Lemma paced_answers : forall tr, paced tr -> answers tr.
Proof.
  intros tr (P1 & P2 & P3). split; [exact P1|]. split; [exact P2|]. intros a v b Q.
  destruct (existsb (fun e => match e with VReqSrc _ => true | _ => false end) a) eqn:X.
  - apply existsb_exists in X as (e & I & X). destruct e; try discriminate X. exists n. exact I.
  - exfalso. assert (L := P3 (a ++ [VCall (FNext v)]) b ltac:(rewrite <- app_assoc; exact Q)). unfold nexts, asked in L. rewrite !total_app, !total_cons, !total_nil in L.
    rewrite (total_zero (fun e => match e with VReqSrc n => n | _ => 0 end) a) in L.
    + assert (0 <= total (fun e => match e with VCall (FNext _) => 1 | _ => 0 end) a) by (apply total_pos; intros [[]| | | | | | | |]; lia). lia.
    + intros e I. destruct e; try reflexivity. exfalso. rewrite <- not_true_iff_false in X. apply X, existsb_exists. exists (VReqSrc n). split; [exact I|reflexivity].
Qed.
Lemma paced_prefix : forall tr evs, paced (tr ++ evs) -> paced tr.
Proof.
  intros tr evs (P1 & P2 & P3). split; [|split].
  - unfold onsubs in *. rewrite total_app in P1. assert (0 <= total (fun e => match e with VCall (FOnSubscribe _ _) => 1 | _ => 0 end) evs) by (apply total_pos; intros [[]| | | | | | | |]; lia). lia.
  - intros c I. apply (P2 c), in_or_app. left. exact I.
  - intros a b Q. apply (P3 a (b ++ evs)). rewrite Q, app_assoc. reflexivity.
Qed.
Lemma eager_prefix : forall tr evs, eager (tr ++ evs) -> eager tr.
Proof. intros tr evs Q n I. apply Q, in_or_app. left. exact I. Qed.
Lemma asks_not_auto : asks_more g -> automatic g = false.
Proof. intros (_ & K & _). unfold automatic. rewrite K. apply andb_false_r. Qed.
Lemma eager_sensible : asks_more g -> forall tr, eager tr -> sensible g tr.
Proof. intros K tr Q. split; [intros n I; assert (X := Q n I); lia|]. rewrite (asks_not_auto K). discriminate. Qed.
Lemma n_pos : asks_more g -> forall st ths tr, freach sync g st ths tr -> eager tr -> paced tr -> 0 <= f_n st.
Proof.
  intros K st ths tr R Q P. destruct (reach_inv sync g st ths tr R (paced_answers _ P) (eager_sensible K _ Q)) as (k & c & [IC (_ & IK & _) _ IN IL IB IOff IOn _ _ _ _ _]).
  rewrite (IK (asks_not_auto K)) in *. destruct (good_pos g _ IB) as (G1 & G2).
  destruct P as (_ & _ & P). assert (L := P tr [] ltac:(rewrite app_nil_r; reflexivity)).
  assert (W : 0 <= total wcn (concat ths)) by (apply total_pos; intros [| | |[]|[] []| | | | | | |]; cbn; lia).
  destruct (f_req st); [specialize (IOn eq_refl); lia|]. destruct (IOff eq_refl) as (Z0 & _). rewrite (srcs_asked _ Z0) in L. lia.
Qed.

Lemma ask_step : asks_more g -> forall st it st' its new evs stack l tr, fstep sync g st it = Some (st', its, new, evs) -> 0 <= f_n st -> emits it -> positive it -> chained (it :: stack) ->
  ask_ok st (it :: stack ++ l) tr -> ask_ok st' (its ++ stack ++ l ++ concat new) (tr ++ evs).
Proof.
  intros (K1 & K2 & K3) st it st' its new evs stack l tr S Np Em Po Ch A. assert (Pl := total_pos wp l wp_pos). assert (Ps := total_pos wp stack wp_pos). unfold ask_ok in *.
  step_cases S; try congruence; cbn [f_sub f_n set_closed set_n set_signal set_cbs concat app] in *; rewrite ?app_nil_r, ?total_cons, ?total_app, ?total_nil in *; cbn [wp] in *;
  try (intros A1 A2; destruct (A A1 A2) as [L|L]; [left; repeat match goal with |- context [if ?b then _ else _] => destruct b end; lia|right; first [exact L|apply lastask_app; [exact L|repeat constructor]]]; fail);
  try (intros A1 A2; left; repeat match goal with |- context [if ?b then _ else _] => destruct b end; lia).
  - contradiction.
  - intros A1 A2. left. cbn [chained] in Ch. destruct Ch as [Ch _]. destruct stack as [|[] stack]; try contradiction. rewrite total_cons in *. cbn [wp] in *. assert (0 <= total wp stack) by (apply total_pos, wp_pos). lia.
  - intros A1 A2. right. exists tr, []. split; [reflexivity|constructor].
  - intros A1 A2. cbn [positive] in Po. lia.
  - intros A1 A2. rewrite total_cons, total_nil. cbn [wp]. destruct (A A1 A2) as [L|L]; [left; lia|right; exact L].
  - intros A1 A2. rewrite (notes_zero wp) by reflexivity. destruct (A A1 A2) as [L|L]; [left; lia|right; exact L].
Qed.

Lemma chained_tail : forall it s, chained (it :: s) -> chained s.
Proof. intros it s C. destruct it as [| | | |on []| | | | | | |]; cbn [chained] in C; try exact C. exact (proj2 C). Qed.
Lemma chained_head : forall it s, (match it with FEmit _ (VNext _) => False | _ => True end) -> chained s -> chained (it :: s).
Proof. intros it s N C. destruct it as [| | | |on []| | | | | | |]; cbn [chained] in *; try exact C. contradiction. Qed.
Lemma chained_step : forall st it st' its new evs, fstep sync g st it = Some (st', its, new, evs) -> forall stack, chained (it :: stack) -> chained (its ++ stack) /\ Forall chained new.
Proof.
  intros st it st' its new evs S stack C. apply chained_tail in C. step_cases S; cbn [app]; (split; [|repeat constructor]); repeat match goal with |- context [if ?b then _ else _] => destruct b end; cbn [app chained] in *; auto.
  induction fcb as [|k l IH]; [exact C|exact IH].
Qed.
Lemma positive_step : forall st it st' its new evs tr, fstep sync g st it = Some (st', its, new, evs) -> asks_more g -> eager (tr ++ evs) -> Forall positive (its ++ concat new).
Proof.
  intros st it st' its new evs tr S (_ & K2 & K3) Q. step_cases S; try congruence; cbn [concat]; rewrite ?app_nil_r; try (repeat constructor; fail).
  - constructor; [|constructor]. apply Q, in_or_app. right. left. reflexivity.
  - destruct fr; repeat constructor.
  - apply Forall_forall. intros a I. apply in_map_iff in I as (x & <- & _). exact Logic.I.
Qed.
Lemma ask_ext : forall st l l' tr, total wp l = total wp l' -> ask_ok st l tr -> ask_ok st l' tr.
Proof. intros st l l' tr Q A. unfold ask_ok in *. rewrite <- Q. exact A. Qed.
Lemma reach_ask : asks_more g -> forall st ths tr, freach sync g st ths tr -> eager tr -> paced tr -> ask_ok st (concat ths) tr /\ Forall chained ths /\ Forall positive (concat ths).
Proof.
  intros K st ths tr R. induction R as [n|st l u stack r tr c0 R IH U|st l u stack r tr R IH U NE|st l it stack r tr st' its new evs R IH S]; intros Q P.
  - split; [intros X; discriminate X|]. split; [induction n; constructor; [exact Logic.I|assumption]|induction n; cbn; constructor; [exact Logic.I|assumption]].
  - destruct (IH Q P) as (A & C & Po). split; [|split].
    + refine (ask_ext _ _ _ _ _ A). rewrite !total_split, !total_cons. reflexivity.
    + apply Forall_app in C as [C1 C2]. apply Forall_app. split; [exact C1|]. inversion C2; subst. constructor; [|assumption]. apply chained_head; [exact Logic.I|assumption].
    + rewrite concat_app in *. cbn [concat app] in *. apply Forall_app in Po as [P1 P2]. apply Forall_app. split; [exact P1|]. constructor; [exact Logic.I|exact P2].
  - destruct (IH Q P) as (A & C & Po). split; [|split].
    + refine (ask_ext _ _ _ _ _ A). rewrite !total_split, !total_cons. destruct u; try discriminate U; cbn [wp]; lia.
    + apply Forall_app in C as [C1 C2]. apply Forall_app. split; [exact C1|]. inversion C2; subst. constructor; [|assumption]. exact (chained_tail _ _ H1).
    + rewrite concat_app in *. cbn [concat app] in *. apply Forall_app in Po as [P1 P2]. apply Forall_app. split; [exact P1|]. inversion P2; assumption.
  - destruct (IH (eager_prefix _ _ Q) (paced_prefix _ _ P)) as (A & C & Po). assert (Np := n_pos K _ _ _ R (eager_prefix _ _ Q) (paced_prefix _ _ P)). destruct (reach_balance K _ _ _ R) as [_ Em].
    rewrite concat_app in Po, Em. cbn [concat app] in Po, Em. apply Forall_app in Po as [P1 P2]. apply Forall_app in Em as [_ E2]. inversion P2 as [|? ? P3 P4]; subst. inversion E2 as [|? ? E3 _]; subst.
    apply Forall_app in C as [C1 C2]. inversion C2 as [|? ? C3 C4]; subst. destruct (chained_step _ _ _ _ _ _ S _ C3) as [C5 C6]. split; [|split].
    + assert (X : ask_ok st (it :: stack ++ (concat l ++ concat r)) tr) by (refine (ask_ext _ _ _ _ _ A); rewrite total_split, !total_cons, !total_app; lia).
      refine (ask_ext _ _ _ _ _ (ask_step K _ _ _ _ _ _ _ _ _ S Np E3 P3 C3 X)). rewrite total_split, concat_app, !total_app. lia.
    + apply Forall_app. split; [exact C1|]. constructor; [exact C5|]. apply Forall_app. split; assumption.
    + assert (X := positive_step _ _ _ _ _ _ _ S K Q). apply Forall_app in X as [X1 X2]. apply Forall_app in P4 as [P4 P5]. rewrite concat_app. cbn [concat]. rewrite concat_app. repeat (apply Forall_app; split); assumption.
Qed.
Theorem not_starved : asks_more g -> forall st ths tr, freach sync g st ths tr -> eager tr -> paced tr -> forallb is_user (concat ths) = true -> subscribed tr = 1 -> requested tr = items tr -> asked_for_more tr.
Proof.
  intros K st ths tr R Q P U Su Eq. destruct (reach_ask K _ _ _ R Q P) as (A & _ & _). destruct (reach_balance K _ _ _ R) as [B _].
  destruct (reach_inv sync g st ths tr R (paced_answers _ P) (eager_sensible K _ Q)) as (k & c & [_ _ IS _ _ _ _ _ _ _ _ _ _]).
  assert (Z0 : forall w : item -> Z, (forall u, is_user u = true -> w u = 0) -> total w (concat ths) = 0) by (intros w X; apply total_zero; intros it J; apply X; rewrite forallb_forall in U; apply U, J).
  unfold balance in B. rewrite (Z0 wreq), (Z0 wv) in B by (intros [] X; try discriminate X; reflexivity). unfold ask_ok in A. rewrite (Z0 wp) in A by (intros [] X; try discriminate X; reflexivity).
  destruct A as [A|A]; [destruct (f_sub st); [reflexivity|cbn in IS; lia]|lia|lia|]. apply lastask_asked, A.
Qed.
(** Without OnRequest, or told not to ask, it is never run. *)
Lemma never_asked : k_norequest g || negb (k_request g) = true -> forall st ths tr, freach sync g st ths tr -> ~ In VOnRequest tr /\ Forall (fun it => match it with FEmit _ VOnRequest => False | _ => True end) (concat ths).
Proof.
  intros K st ths tr R. induction R as [n|st l u stack r tr c0 R [B F] U|st l u stack r tr R [B F] U NE|st l it stack r tr st' its new evs R [B F] S].
  - split; [intros []|induction n; cbn; constructor; [exact Logic.I|assumption]].
  - split; [exact B|]. rewrite concat_app in *. cbn [concat app] in *. apply Forall_app in F as [P1 P2]. apply Forall_app. split; [exact P1|]. constructor; [exact Logic.I|exact P2].
  - split; [exact B|]. rewrite concat_app in *. cbn [concat app] in *. apply Forall_app in F as [P1 P2]. apply Forall_app. split; [exact P1|]. inversion P2; assumption.
  - rewrite concat_app in F. cbn [concat app] in F. apply Forall_app in F as [F1 F2]. inversion F2 as [|? ? F3 F4]; subst.
    assert (X : ~ In VOnRequest evs /\ Forall (fun it => match it with FEmit _ VOnRequest => False | _ => True end) (its ++ concat new)).
    { clear - S K F3. step_cases S; cbn beta iota in F3; try contradiction; try discriminate K; cbn [concat]; rewrite ?app_nil_r; (split; [cbn [In]; intuition discriminate|]); repeat constructor; try contradiction.
      - destruct fr; repeat constructor.
      - apply Forall_forall. intros a I. apply in_map_iff in I as (x & <- & _). exact Logic.I. }
    destruct X as [X1 X2]. apply Forall_app in X2 as [X2 X3]. apply Forall_app in F4 as [F4 F5]. split; [intro I; apply in_app_or in I as [I|I]; contradiction|]. rewrite concat_app. cbn [concat]. rewrite concat_app. repeat (apply Forall_app; split); assumption.
Qed.
(** No more Cancels reach the source than were called. *)
Definition wcs it : Z := match it with FEmit true VCancelSrc => 1 | _ => 0 end.
Lemma stops_cons : forall e tr, Z.of_nat (stops (e :: tr)) = (match e with VCancelSrc => 1 | _ => 0 end) + Z.of_nat (stops tr).
Proof. intros e tr. unfold stops. cbn [filter]. destruct e; cbn [length]; lia. Qed.
Lemma stops_total : forall tr, Z.of_nat (stops tr) = total (fun e => match e with VCancelSrc => 1 | _ => 0 end) tr.
Proof. induction tr as [|e tr IH]; [reflexivity|]. rewrite stops_cons, total_cons, IH. reflexivity. Qed.
Lemma cancels_total : forall tr, Z.of_nat (cancels (fcalls tr)) = total (fun e => match e with VCall FCancel => 1 | _ => 0 end) tr.
Proof.
  induction tr as [|e tr IH]; [reflexivity|]. rewrite total_cons, <- IH. unfold cancels, fcalls. cbn [flat_map]. destruct e as [[]| | | | | | | |]; cbn [app filter length]; lia.
Qed.
Lemma stops_bound : forall st ths tr, freach sync g st ths tr -> Z.of_nat (stops tr) + total wcs (concat ths) <= Z.of_nat (cancels (fcalls tr)) /\ Forall emits (concat ths).
Proof.
  intros st ths tr R. rewrite stops_total, cancels_total. induction R as [n|st l u stack r tr c0 R [B F] U|st l u stack r tr R [B F] U NE|st l it stack r tr st' its new evs R [B F] S].
  - split; [|induction n as [|n IH]; cbn; [constructor|constructor; [exact I|exact IH]]]. rewrite (total_zero wcs); [reflexivity|]. intros a I; apply in_concat in I as (x & Hx & I); apply repeat_spec in Hx; subst x; destruct I as [<-|[]]; reflexivity.
  - split; [rewrite total_split, !total_cons in *; cbn [wcs]; lia|]. rewrite concat_app in *. cbn [concat app] in *. apply Forall_app in F as [P1 P2]. apply Forall_app. split; [exact P1|]. constructor; [exact Logic.I|exact P2].
  - split; [rewrite total_split, !total_cons in *; destruct u; try discriminate U; cbn [wcs] in *; lia|]. rewrite concat_app in *. cbn [concat app] in *. apply Forall_app in F as [P1 P2]. apply Forall_app. split; [exact P1|]. inversion P2; assumption.
  - rewrite concat_app in F. cbn [concat app] in F. apply Forall_app in F as [F1 F2]. inversion F2 as [|? ? F3 F4]; subst. split.
    + rewrite total_split, total_cons in B. rewrite total_split, concat_app, !total_app.
      assert (X : total (fun e => match e with VCancelSrc => 1 | _ => 0 end) evs + total wcs its + total wcs (concat new) <= total (fun e => match e with VCall FCancel => 1 | _ => 0 end) evs + wcs it); [|lia]. clear - S F3.
      step_cases S; try contradiction; rewrite ?(notes_zero wcs) by reflexivity; rewrite ?total_cons, ?total_nil; cbn [concat app wcs]; rewrite ?total_cons, ?total_nil; repeat match goal with |- context [if ?b then _ else _] => destruct b end; cbn [wcs total fold_right]; lia.
    + assert (X := emits_step _ _ _ _ _ _ S). apply Forall_app in X as [X1 X2]. apply Forall_app in F4 as [F4 F5]. rewrite concat_app. cbn [concat]. rewrite concat_app. repeat (apply Forall_app; split); assumption.
Qed.
End Ask.

(** ** One thread *)
Section One.
Context {T E : Type} (g : fcfg).
Notation item := (fitem T E).
Implicit Types (it : item) (tr : list (fevent T E)) (st : flst).

(** Items below the top. *)
Definition deep it : Prop := match it with FReq _ | FEmit _ (VNext _) | FEmit _ VOnRequest | FEmit _ VCancelSrc | FEmit _ (VCall _) | FCommit _ | FDo _ => False | _ => True end.
Definition hs it : nat := match it with FHandle => 1 | _ => 0 end.
Definition handles (l : list item) : nat := fold_right (fun it n => (hs it + n)%nat) 0%nat l.
Definition hot st it : nat := match it with FHandle | FEmit true VOnRequest => if f_n st =? 0 then 0 else 1 | _ => 0 end.
Lemma hasty_app : forall (a : list (fevent T E)) d b, hasty d (a ++ b) = (hasty d a + hasty (d + requested a - items a) b)%nat.
Proof.
  unfold requested, items. induction a as [|e a IH]; intros d b; [cbn [app hasty]; rewrite !total_nil, Z.add_0_r, Z.sub_0_r; reflexivity|]. rewrite !total_cons.
  destruct e as [[]| | | | | | | |]; cbn [app hasty]; rewrite IH; match goal with |- _ = (_ + hasty ?x b)%nat => match goal with |- context [hasty ?y b] => replace y with x by lia end end; lia.
Qed.
Definition pending_stop it : nat := match it with FEmit true VCancelSrc => 1 | _ => 0 end.
Fixpoint after (can closed : bool) (l : list (fcall T E)) : bool * bool :=
  match l with
  | [] => (can, closed)
  | FCancel :: l' => after can true l'
  | FOnSubscribe _ c :: l' => after (if closed then can else c) closed l'
  | c :: l' => after can (closed || closes c) l'
  end.
Lemma told_app : forall a can closed b, told can closed (a ++ b) = (told can closed a + told (fst (after can closed a)) (snd (after can closed a)) b)%nat.
Proof. induction a as [|c a IH]; intros can closed b; [reflexivity|]. destruct c; cbn [app told after]; rewrite IH; try reflexivity. lia. Qed.
Lemma after_app : forall a can closed b, after can closed (a ++ b) = after (fst (after can closed a)) (snd (after can closed a)) b.
Proof. induction a as [|c a IH]; intros can closed b; [reflexivity|]. destruct c; cbn [app after]; apply IH. Qed.
Definition stands st it : bool * bool :=
  match it with FCommit (FOnSubscribe _ c) => (c, false) | FCommit c => (f_can st, closes c) | _ => (f_can st, f_closed st) end.

Record one st it (stack : list item) tr : Prop := mkOne {
  o_deep : Forall deep stack;
  o_hasty : asks_more g -> (hasty 0 tr + hot st it + handles stack <= if f_sub st then 1 else 0)%nat;
  o_commit : match it with FCommit c => f_closed st = false | FEmit _ (VCall _) => False | _ => True end;
  o_after : after false false (fcalls tr) = stands st it;
  o_told : (stops tr + pending_stop it)%nat = told false false (fcalls tr) }.

Definition one_ok st (stack : list item) tr : Prop := match stack with [] => True | it :: s => one st it s tr end.

Lemma calls_app : forall tr tr', fcalls (tr ++ tr') = fcalls tr ++ fcalls tr'.
Proof. intros. apply flat_map_app. Qed.
Lemma stops_app : forall tr tr', stops (tr ++ tr') = (stops tr + stops tr')%nat.
Proof. intros. unfold stops. rewrite filter_app, app_length. reflexivity. Qed.
Lemma pop : forall st stack tr, Forall deep stack -> (asks_more g -> (hasty 0 tr + handles stack <= if f_sub st then 1 else 0)%nat) -> after false false (fcalls tr) = (f_can st, f_closed st) -> stops tr = told false false (fcalls tr) -> one_ok st stack tr.
Proof.
  intros st stack tr D H A O. destruct stack as [|it stack]; [exact Logic.I|]. inversion D as [|? ? D1 D2]; subst. constructor.
  - exact D2.
  - intro K. specialize (H K). cbn [handles fold_right] in H. fold (handles stack) in H. assert (hot st it <= hs it)%nat; [|lia]. destruct it as [| | | |[] []| | | | | | |]; cbn [hot hs deep] in *; try contradiction; try lia. destruct (f_n st =? 0); lia.
  - destruct it as [| | | |[] []| | | | | | |]; try contradiction; exact Logic.I.
  - rewrite A. destruct it; try contradiction; reflexivity.
  - rewrite O. destruct it as [| | | |[] []| | | | | | |]; cbn [pending_stop deep] in *; try contradiction; lia.
Qed.
Lemma push : forall st it its stack tr, Forall deep (its ++ stack) -> (match it with FCommit c => f_closed st = false | FEmit _ (VCall _) => False | _ => True end) ->
  (asks_more g -> (hasty 0 tr + hot st it + handles (its ++ stack) <= if f_sub st then 1 else 0)%nat) -> after false false (fcalls tr) = stands st it -> (stops tr + pending_stop it)%nat = told false false (fcalls tr) -> one_ok st ((it :: its) ++ stack) tr.
Proof. intros. constructor; assumption. Qed.
Lemma one_step : forall st it st' its new evs stack tr, fstep true g st it = Some (st', its, new, evs) -> (asks_more g -> balance st (it :: stack) tr) ->
  one st it stack tr -> new = [] /\ one_ok st' (its ++ stack) (tr ++ evs).
Proof.
  intros st it st' its new evs stack tr S B [D H C A O].
  assert (Hs : (hasty 0 (tr ++ evs) = hasty 0 tr + hasty (0 + requested tr - items tr) evs)%nat) by apply hasty_app.
  assert (Ha := after_app (fcalls tr) false false (fcalls evs)). rewrite <- calls_app in Ha. assert (Ht := told_app (fcalls tr) false false (fcalls evs)). rewrite <- calls_app in Ht. assert (Hp := stops_app tr evs).
  rewrite A in Ha, Ht. rewrite <- O in Ht. clear A O. set (d := 0 + requested tr - items tr) in *.
  assert (Pd : asks_more g -> forall v, it = FEmit true v -> (match v with VOnRequest => True | _ => False end) -> d = f_n st).
  { intros K v -> V. specialize (B K). unfold balance in B. rewrite !total_cons in B. rewrite !(total_zero _ stack) in B; [destruct v; try contradiction; cbn [wreq wv] in B; unfold d; lia|..]; intros a I; rewrite Forall_forall in D; assert (Q := D a I); destruct a as [| | | |[] []| | | | | | |]; try contradiction; reflexivity. }
  clear B. clearbody d.
  step_cases S; (split; [reflexivity|]); rewrite ?app_nil_r in *; cbn [app fcalls flat_map after told stops filter length hasty stands f_can f_closed f_sub f_n set_closed set_n set_signal set_cbs fst snd closes orb hot pending_stop Nat.add] in *;
  try contradiction;
  repeat match goal with |- context [one_ok _ ((if ?b then _ else _) ++ _) _] => destruct b end; cbn [app];
  match goal with |- one_ok _ stack _ => apply pop | |- one_ok _ (?i1 :: ?i2 :: stack) _ => apply (push _ i1 [i2] stack) | |- one_ok _ (?i1 :: stack) _ => apply (push _ i1 [] stack) | _ => idtac end;
  try exact Logic.I; try exact D;
  cbn [app stands pending_stop hot f_can f_closed f_sub f_n closes set_closed set_n set_signal set_cbs f_cbs handles fold_right hs deep];
  lazymatch goal with
  | |- Forall deep _ => repeat (constructor; [exact Logic.I|]); assumption
  | |- after _ _ _ = _ => rewrite ?app_nil_r in *; rewrite Ha, ?orb_false_r; repeat match goal with |- context [if ?b then _ else _] => destruct b end; try reflexivity; try (rewrite C; reflexivity)
  | |- asks_more _ -> _ => clear Ha Ht Hp; let K := fresh "K" in intro K; specialize (H K); fold (handles stack); try (specialize (Pd K _ eq_refl Logic.I); rewrite Pd in *); try clear Pd; rewrite ?app_nil_r; try rewrite Hs; clear Hs;
    try (subst fn; rewrite Z.eqb_refl in * ); repeat match goal with |- context [if ?b then _ else _] => destruct b end; lia
  | |- (stops _ + _)%nat = _ => clear Ha Hs H Pd; repeat match goal with |- context [if ?b then _ else _] => destruct b end; lia
  | |- stops _ = _ => clear Ha Hs H Pd; repeat match goal with |- context [if ?b then _ else _] => destruct b end; lia
  | |- _ => try reflexivity
  end.
  - rewrite orb_true_r. reflexivity.
  - idtac. destruct fcb as [|k l]; cbn [map app].
    + apply pop; cbn [f_can f_closed f_sub f_n]; [exact D|intro K; specialize (H K); lia|exact Ha|lia].
    + apply (push _ (FEmit true (VNotify k s)) (map (fun k => FEmit true (VNotify k s)) l) stack); cbn [stands pending_stop hot f_can f_closed f_sub f_n].
      * apply Forall_app. split; [|exact D]. apply Forall_forall. intros a I. apply in_map_iff in I as (x & <- & _). exact Logic.I.
      * exact Logic.I.
      * intro K. specialize (H K). assert (Q : handles (map (fun k => FEmit true (VNotify k s)) l ++ stack) = handles stack) by (clear; induction l as [|x l IH]; [reflexivity|exact IH]). rewrite Q. lia.
      * exact Ha.
      * lia.
Qed.
Lemma reach_one : forall st ths tr, freach true g st ths tr -> forall stack, ths = [stack] -> one_ok st stack tr.
Proof.
  intros st ths tr H. induction H as [n|st l u stack r tr c H IH U|st l u stack r tr H IH U N|st l it stack r tr st' its new evs H IH S]; intros stk Es.
  - destruct n as [|[|n]]; try discriminate. injection Es as <-. constructor; try reflexivity; try exact Logic.I; try constructor.
  - apply one_thread in Es as (-> & -> & <-). destruct (IH _ eq_refl) as [D Hh C A O]. constructor; [constructor; [destruct u; try discriminate U; exact Logic.I|exact D]|..|].
    + intro K. specialize (Hh K). destruct u; try discriminate U; exact Hh.
    + exact Logic.I.
    + rewrite A. destruct u; try discriminate U; reflexivity.
    + rewrite <- O. destruct u; try discriminate U; reflexivity.
  - apply one_thread in Es as (-> & -> & <-). destruct (IH _ eq_refl) as [D Hh C A O]. apply pop; [exact D|..].
    + intro K. specialize (Hh K). destruct u; try discriminate U; cbn [hot] in Hh; lia.
    + rewrite A. destruct u; try discriminate U; reflexivity.
    + rewrite <- O. destruct u; try discriminate U; cbn [pending_stop]; lia.
  - assert (X : exists q, new = q /\ l ++ (its ++ stack) :: r ++ new = [stk]) by (exists new; auto). destruct X as (q & _ & X).
    apply one_thread in X as (-> & X & <-). apply app_eq_nil in X as [-> ->]. cbn [app] in *. refine (proj2 (one_step _ _ _ _ _ _ _ _ S _ (IH _ eq_refl))).
    intro K. destruct (reach_balance true g K _ _ _ H) as [B _]. cbn [concat] in B. rewrite app_nil_r in B. exact B.
Qed.
Theorem hasty_one : asks_more g -> forall st stack tr, freach true g st [stack] tr -> (hasty 0 tr <= 1)%nat.
Proof.
  intros K st stack tr R. assert (O := reach_one _ _ _ R _ eq_refl). destruct stack as [|it stack].
  - exfalso. destruct (FluxProofs.freach_inv_aux g _ _ _ R _ eq_refl) as [_ [s B]]. destruct s; discriminate B.
  - destruct O as [_ H _ _ _]. specialize (H K). destruct (f_sub st); lia.
Qed.
Theorem told_one : forall st u stack tr, freach true g st [u :: stack] tr -> is_user u = true -> stops tr = told false false (fcalls tr).
Proof. intros st u stack tr R U. destruct (reach_one _ _ _ R _ eq_refl) as [_ _ _ _ O]. rewrite <- O. destruct u; try discriminate U; cbn [pending_stop]; lia. Qed.
End One.
