(** Proofs about the responder. *)
From Coq Require Import List NArith ZArith Bool Lia.
From Verif Require Import Base FramesModel MonoModel FluxModel FluxSpec ProxyModel ResponderModel ResponderSpec.
Import ListNotations.

Section Proofs.
Context (sync : bool) (gin : fcfg) (sid initial : N).
Notation rstep := (rstep sync gin sid initial).
Notation rreach := (rreach sync gin sid initial).

Lemma sent_app : forall a b, sent_frames (a ++ b) = sent_frames a ++ sent_frames b.
Proof. intros. apply flat_map_app. Qed.
Lemma answers_app : forall a b, answers (a ++ b) = answers a ++ answers b.
Proof. intros. unfold answers. rewrite sent_app, filter_app. reflexivity. Qed.
Lemma calls_app : forall a b, out_calls (a ++ b) = out_calls a ++ out_calls b.
Proof. intros. apply flat_map_app. Qed.
Lemma sent_ROV : forall evs, sent_frames (map ROV evs) = [].
Proof. induction evs; [reflexivity|exact IHevs]. Qed.
Lemma sent_RIV : forall evs, sent_frames (map RIV evs) = [].
Proof. induction evs; [reflexivity|exact IHevs]. Qed.
Lemma calls_RIV : forall evs, out_calls (map RIV evs) = [].
Proof. induction evs; [reflexivity|exact IHevs]. Qed.
Lemma no_answers : forall evs, sent_frames evs = [] -> answers evs = [].
Proof. intros evs H. unfold answers. rewrite H. reflexivity. Qed.
Lemma holds_RI : forall its, forallb (fun it => negb (holds it)) (map RI its) = true.
Proof. induction its; [reflexivity|exact IHits]. Qed.
Lemma idle_RI : forall new, idle (map (map RI) new) = true.
Proof. induction new as [|x l IH]; [reflexivity|]. cbn [map idle forallb]. rewrite holds_RI. exact IH. Qed.

(** ** What one step does *)
Inductive kind (st : rst) (it : ritem) (st' : rst) (its : list ritem) (new : list (list ritem)) (evs : list revent) : Prop :=
| k_other : holds it = false -> begins it = false -> (f_closed (r_out st) = true -> f_closed (r_out st') = true) -> answers evs = [] ->
    forallb (fun it => negb (holds it)) its = true -> idle new = true -> kind st it st' its new evs
| k_begin : forall c, it = RO (FDo c) -> begins it = true -> st' = st -> new = [] -> evs = [ROV (VCall c)] ->
    (f_closed (r_out st) = true /\ its = [] \/ f_closed (r_out st) = false /\ its = [RO (FCommit c)]) -> kind st it st' its new evs
| k_commit : forall c e x f, it = RO (FCommit c) -> holds it = true -> its = [RO (FEmit true e); x] -> holds x = false -> frame_of sid e = Some f -> owed sid c = [f] ->
    closes c = terminal f -> f_closed (r_out st') = (if closes c then true else f_closed (r_out st)) -> new = [] -> evs = [] -> kind st it st' its new evs
| k_emit : forall e f, it = RO (FEmit true e) -> frame_of sid e = Some f -> st' = st -> its = [] -> new = [] -> evs = [ROV e; RSent f] -> kind st it st' its new evs
| k_skip : forall e, it = RO (FEmit false e) -> st' = st -> its = [] -> new = [] -> evs = [] -> kind st it st' its new evs.

Lemma st_eta : forall st, mkR (r_out st) (r_in st) (r_sub st) = st.
Proof. destruct st; reflexivity. Qed.

Lemma step_kind : forall st it st' its new evs, rstep st it = Some (st', its, new, evs) -> kind st it st' its new evs.
Proof.
  intros st it st' its new evs X. destruct it as [it|it| | |c].
  - destruct it as [|n|c|c|on e| | |n|n|n|sg|sg]; try discriminate X.
    + destruct c; cbn [ResponderModel.rstep fstep] in X;
      repeat match type of X with context [if ?b then _ else _] => let B := fresh "B" in destruct b eqn:B end; try discriminate X; cbn [map] in X; injection X as <- <- <- <-; rewrite ?st_eta;
      try (eapply k_begin; [reflexivity|reflexivity|reflexivity|reflexivity|reflexivity|]; auto; fail);
      (apply k_other; [reflexivity|reflexivity|auto|reflexivity|try reflexivity|reflexivity]).
    + destruct c; cbn [ResponderModel.rstep fstep] in X; try discriminate X; cbn [map] in X; injection X as <- <- <- <-.
      * eapply k_commit; try reflexivity. cbn. destruct v; reflexivity.
      * eapply k_commit; try reflexivity.
      * eapply k_commit; try reflexivity.
      * apply k_other; try reflexivity; [auto|]. destruct (0 <? f_n (r_out st))%Z; reflexivity.
    + destruct on.
      * cbn [ResponderModel.rstep] in X. destruct (frame_of sid e) as [f|] eqn:F.
        -- injection X as <- <- <- <-. eapply k_emit; try reflexivity. exact F.
        -- destruct e; try discriminate F; cbn [fstep map] in X; injection X as <- <- <- <-; apply k_other; try reflexivity; auto.
      * cbn [ResponderModel.rstep fstep map] in X. injection X as <- <- <- <-. eapply k_skip; try reflexivity. apply st_eta.
    + cbn [ResponderModel.rstep fstep] in X. injection X as <- <- <- <-. apply k_other; try reflexivity; [auto|]. destruct (f_n (r_out st) =? 0)%Z; reflexivity.
    + cbn in X. injection X as <- <- <- <-. apply k_other; try reflexivity; auto.
    + cbn [ResponderModel.rstep fstep] in X. injection X as <- <- <- <-. apply k_other; try reflexivity; [auto|]. destruct (f_req (r_out st)); reflexivity.
    + cbn [ResponderModel.rstep fstep] in X. destruct sync; injection X as <- <- <- <-; apply k_other; try reflexivity; auto.
    + cbn [ResponderModel.rstep fstep] in X. destruct (f_req (r_out st)); [|discriminate X]. injection X as <- <- <- <-; apply k_other; try reflexivity; auto.
    + cbn [ResponderModel.rstep fstep] in X. injection X as <- <- <- <-; apply k_other; try reflexivity; auto.
    + cbn [ResponderModel.rstep fstep] in X. injection X as <- <- <- <-; apply k_other; try reflexivity; auto. clear. induction (f_cbs (r_out st)); [reflexivity|assumption].
  - assert (Y : r_out st' = r_out st /\ answers evs = [] /\ forallb (fun it => negb (holds it)) its = true /\ idle new = true).
    { assert (G : forall i, match fstep sync gin (r_in st) i with
         | Some (fl, its, new, evs) => Some (mkR (r_out st) fl (r_sub st), map RI its, map (map RI) new, map RIV evs)
         | None => None end = Some (st', its, new, evs) -> r_out st' = r_out st /\ answers evs = [] /\ forallb (fun it => negb (holds it)) its = true /\ idle new = true).
      { intros i Z. destruct (fstep sync gin (r_in st) i) as [[[[fl is] nw] ev]|]; [|discriminate Z]. injection Z as <- <- <- <-. split; [reflexivity|]. split; [apply no_answers, sent_RIV|]. split; [apply holds_RI|apply idle_RI]. }
      destruct it as [|n|c|c|on e| | |n|n|n|sg|sg]; try (match type of X with ResponderModel.rstep _ _ _ _ _ (_ ?i) = _ => exact (G i X) end).
      - destruct c; try (match type of X with ResponderModel.rstep _ _ _ _ _ (_ ?i) = _ => exact (G i X) end). cbn [ResponderModel.rstep] in X. destruct (fstep sync gin (r_in st) (FDo FSubscribe)) as [[[[fl is] nw] ev]|]; [|discriminate X]. injection X as <- <- <- <-. split; [reflexivity|]. split; [apply no_answers, sent_RIV|]. split; reflexivity.
      - destruct on; [|match type of X with ResponderModel.rstep _ _ _ _ _ (_ ?i) = _ => exact (G i X) end]. destruct e; try (match type of X with ResponderModel.rstep _ _ _ _ _ (_ ?i) = _ => exact (G i X) end); cbn [ResponderModel.rstep] in X; injection X as <- <- <- <-; repeat split. }
    destruct Y as (Y1 & Y2 & Y3 & Y4). apply k_other; try reflexivity; try assumption. rewrite Y1. auto.
  - cbn in X. injection X as <- <- <- <-. apply k_other; try reflexivity; auto.
  - cbn in X. injection X as <- <- <- <-. apply k_other; try reflexivity; auto.
  - destruct c; cbn [ResponderModel.rstep] in X; match type of X with (if ?b then _ else _) = _ => destruct b end; try discriminate X; injection X as <- <- <- <-; apply k_other; try reflexivity; auto.
Qed.

(** ** Sink calls that do not overlap *)
Definition held (ths : list (list ritem)) : list ritem := flat_map (filter holds) ths.
Lemma held_app : forall a b, held (a ++ b) = held a ++ held b.
Proof. intros. apply flat_map_app. Qed.
Lemma filter_none : forall l, forallb (fun it => negb (holds it)) l = true -> filter holds l = [].
Proof. induction l as [|x l IH]; [reflexivity|]. cbn [forallb filter]. rewrite andb_true_iff. intros [A B]. destruct (holds x); [discriminate A|auto]. Qed.
Lemma held_idle : forall ths, idle ths = true -> held ths = [].
Proof. induction ths as [|x l IH]; [reflexivity|]. cbn [idle forallb held flat_map]. rewrite andb_true_iff. intros [A B]. rewrite (filter_none x A). exact (IH B). Qed.
Lemma none_filter : forall l, filter holds l = [] -> forallb (fun it => negb (holds it)) l = true.
Proof. induction l as [|x l IH]; [reflexivity|]. cbn [forallb filter]. destruct (holds x); [discriminate|]. exact IH. Qed.
Lemma idle_held : forall ths, held ths = [] -> idle ths = true.
Proof. induction ths as [|x l IH]; [reflexivity|]. cbn [idle forallb held flat_map]. intro H. apply app_eq_nil in H. destruct H as [A B]. rewrite (none_filter x A). exact (IH B). Qed.
Lemma held_at : forall l x rest, held (l ++ x :: rest) = held l ++ filter holds x ++ held rest.
Proof. intros. rewrite held_app. reflexivity. Qed.

Definition quiet (tr : list revent) : bool := forallb (fun f => negb (terminal f)) (answers tr).
Definition closing (it : ritem) : bool := match it with RO (FEmit true (VComplete | VError _)) => true | _ => false end.
Record inv (st : rst) (ths : list (list ritem)) (tr : list revent) : Prop := {
  v_one : (length (held ths) <= 1)%nat;
  v_ok : stream_ok (answers tr) = true;
  v_end : quiet tr = true \/ (f_closed (r_out st) = true /\ held ths = []);
  v_closing : existsb closing (held ths) = true -> f_closed (r_out st) = true }.

Lemma ok_quiet : forall l, forallb (fun f => negb (terminal f)) l = true -> forall f, stream_ok (l ++ [f]) = true.
Proof.
  induction l as [|x l IH]; intros H f; [reflexivity|]. cbn [forallb] in H. apply andb_true_iff in H. destruct H as [A B]. cbn [app stream_ok]. destruct (l ++ [f]) as [|y t] eqn:E; [reflexivity|]. rewrite A, <- E. exact (IH B f).
Qed.
Lemma frame_answer : forall e f, frame_of sid e = Some f -> is_answer f = true.
Proof. intros e f H. destruct e; try discriminate H; injection H as <-; reflexivity. Qed.

Lemma inv_step : forall st l it stack rest tr st' its new evs, inv st (l ++ (it :: stack) :: rest) tr -> rstep st it = Some (st', its, new, evs) ->
  (begins it = true -> idle (l ++ (it :: stack) :: rest) = true) -> inv st' (l ++ (its ++ stack) :: rest ++ new) (tr ++ evs).
Proof.
  intros st l it stack rest tr st' its new evs [V1 V2 V3 V4] X Sr. rewrite held_at in V1, V3, V4. cbn [filter] in V1, V3, V4. destruct (step_kind _ _ _ _ _ _ X) as [H B C A I N|c E B S N V C|c e x f E H I Hx F O Cl S N V|e f E F S I N V|e E S I N V].
  - rewrite H in V1, V3, V4. assert (Q : held (l ++ (its ++ stack) :: rest ++ new) = held l ++ filter holds stack ++ held rest).
    { rewrite held_at, filter_app, (filter_none its I), held_app, (held_idle new N), app_nil_r. reflexivity. }
    constructor; rewrite ?Q.
    + exact V1.
    + rewrite answers_app, A, app_nil_r. exact V2.
    + unfold quiet. rewrite answers_app, A, app_nil_r. destruct V3 as [V3|[V3 V5]]; [left; exact V3|right; auto].
    + intro Z. apply C. apply V4. exact Z.
  - specialize (Sr B). assert (Q0 := held_idle _ Sr). rewrite held_at in Q0. cbn [filter] in Q0. rewrite Q0 in V1, V3, V4. subst it st' new evs. cbn [holds] in Q0.
    assert (An : answers (tr ++ [ROV (VCall c)]) = answers tr) by (rewrite answers_app; cbn; apply app_nil_r).
    destruct C as [[Cd ->]|[Cd ->]].
    + constructor.
      * rewrite app_nil_r, held_at, app_nil_l, Q0. apply Nat.le_0_l.
      * rewrite An. exact V2.
      * right. split; [exact Cd|]. rewrite app_nil_r, held_at. exact Q0.
      * rewrite app_nil_r, held_at, app_nil_l, Q0. discriminate.
    + assert (Q : held (l ++ ([RO (FCommit c)] ++ stack) :: rest ++ []) = [RO (FCommit c)]).
      { apply app_eq_nil in Q0. destruct Q0 as [Q1 Q2]. apply app_eq_nil in Q2. destruct Q2 as [Q2 Q3]. rewrite app_nil_r, held_at, filter_app, Q1, Q2, Q3. destruct c; try discriminate B; reflexivity. }
      constructor; rewrite ?Q.
      * apply le_n.
      * rewrite An. exact V2.
      * unfold quiet. rewrite An. destruct V3 as [V3|[V3 _]]; [left; exact V3|congruence].
      * discriminate.
  - assert (Hi : filter holds (its ++ stack) = RO (FEmit true e) :: filter holds stack).
    { rewrite I. cbn [app filter]. rewrite Hx. destruct e; try discriminate F; reflexivity. }
    rewrite H in V1, V3, V4. assert (Z : held l = [] /\ filter holds stack = [] /\ held rest = []).
    { rewrite app_length in V1. cbn [app length] in V1. rewrite app_length in V1. destruct (held l), (filter holds stack), (held rest); cbn in V1; auto; lia. }
    destruct Z as (Z1 & Z2 & Z3). subst evs new. rewrite !app_nil_r.
    assert (Q : held (l ++ (its ++ stack) :: rest) = [RO (FEmit true e)]) by (rewrite held_at, Hi, Z1, Z2, Z3; reflexivity).
    assert (V5 : quiet tr = true) by (destruct V3 as [V3|[_ V3]]; [exact V3|rewrite Z1 in V3; discriminate V3]).
    constructor; rewrite ?Q.
    + apply le_n.
    + exact V2.
    + left. exact V5.
    + cbn [existsb]. rewrite orb_false_r. intro T. rewrite S, Cl. assert (TT : terminal f = true) by (destruct e; try discriminate T; injection F as <-; reflexivity). rewrite TT. reflexivity.
  - assert (H : holds it = true) by (rewrite E; destruct e; try discriminate F; reflexivity). rewrite H in V1, V3, V4. assert (Z : held l = [] /\ filter holds stack = [] /\ held rest = []).
    { rewrite app_length in V1. cbn [app length] in V1. rewrite app_length in V1. destruct (held l), (filter holds stack), (held rest); cbn in V1; auto; lia. }
    destruct Z as (Z1 & Z2 & Z3). subst it st' its new evs. rewrite app_nil_l, app_nil_r.
    assert (Q : held (l ++ stack :: rest) = []) by (rewrite held_at, Z1, Z2, Z3; reflexivity).
    assert (V5 : quiet tr = true) by (destruct V3 as [V3|[_ V3]]; [exact V3|rewrite Z1 in V3; discriminate V3]).
    assert (An : answers (tr ++ [ROV e; RSent f]) = answers tr ++ [f]) by (rewrite answers_app; unfold answers at 2; cbn [sent_frames flat_map app filter]; rewrite (frame_answer e f F); reflexivity).
    rewrite Z1, Z2, Z3 in V4. cbn [app existsb] in V4. rewrite orb_false_r in V4.
    constructor; rewrite ?Q.
    + apply Nat.le_0_l.
    + rewrite An. apply ok_quiet. exact V5.
    + unfold quiet. rewrite An, forallb_app. fold (quiet tr). rewrite V5. cbn [forallb andb]. rewrite andb_true_r. destruct (terminal f) eqn:T; [|left; reflexivity]. right. split; [|reflexivity]. apply V4. destruct e; try discriminate F; injection F as <-; cbn in T; try discriminate T; reflexivity.
    + discriminate.
  - subst it st' its new evs. rewrite app_nil_l, !app_nil_r.
    assert (Q : exists pre, held l ++ (if holds (RO (FEmit false e)) then RO (FEmit false e) :: filter holds stack else filter holds stack) ++ held rest = held l ++ pre ++ filter holds stack ++ held rest /\ (pre = [] \/ pre = [RO (FEmit false e)])).
    { destruct (holds (RO (FEmit false e))); [exists [RO (FEmit false e)]|exists []]; auto. }
    destruct Q as (pre & Q & P). cbn [app] in *. rewrite Q in V1, V3, V4. constructor; rewrite ?held_at.
    + rewrite !app_length in *. lia.
    + exact V2.
    + destruct V3 as [V3|[V3 V5]]; [left; exact V3|right]. split; [exact V3|]. apply app_eq_nil in V5. destruct V5 as [-> V5]. apply app_eq_nil in V5. exact (proj2 V5).
    + rewrite !existsb_app in *. intro T. apply V4. destruct (existsb closing (held l)); [reflexivity|]. cbn [orb] in *. rewrite T. apply orb_true_r.
Qed.

Lemma call_holds : forall c, rcall c = true -> holds c = false.
Proof. destruct c as [it|it| | |c]; try reflexivity. destruct it; reflexivity || discriminate. Qed.
Lemma user_holds : forall c, is_ruser c = true -> holds c = false.
Proof. destruct c as [it|it| | |c]; try reflexivity. destruct it; reflexivity || discriminate. Qed.

Lemma reach_inv : forall st ths tr, rreach true st ths tr -> inv st ths tr.
Proof.
  intros st ths tr R. induction R as [n|st l u stack rest tr c R IH Hu Hc|st l u stack rest tr R IH Hu Hs|st l it stack rest tr st' its new evs R IH Hs Hb].
  - assert (Q : held (repeat [RO FUser] n) = []) by (induction n; [reflexivity|assumption]). constructor; rewrite ?Q; try reflexivity; [apply Nat.le_0_l|left; reflexivity|discriminate].
  - assert (Q : held (l ++ (c :: u :: stack) :: rest) = held (l ++ (u :: stack) :: rest)) by (rewrite !held_at; cbn [filter]; rewrite (call_holds c Hc); reflexivity).
    destruct IH as [V1 V2 V3 V4]. constructor; rewrite ?Q; assumption.
  - assert (Q : held (l ++ stack :: rest) = held (l ++ (u :: stack) :: rest)) by (rewrite !held_at; cbn [filter]; rewrite (user_holds u Hu); reflexivity).
    destruct IH as [V1 V2 V3 V4]. constructor; rewrite ?Q; assumption.
  - eapply inv_step; [exact IH|exact Hs|]. intro B. apply Hb; [reflexivity|exact B].
Qed.

(** ** One thread *)
Definition wait (it : ritem) : bool := negb (holds it) && match it with RO (FCommit _) => false | RO (FEmit _ (VCall _)) => false | _ => true end.
Definition pend (it : ritem) : list frame :=
  match it with RO (FCommit c) => owed sid c | RO (FEmit true e) => match frame_of sid e with Some f => [f] | None => [] end | _ => [] end.
Definition top_closes (it : ritem) : bool := match it with RO (FCommit c) => closes c | _ => false end.
Definition proper (it : ritem) : bool := match it with RO (FEmit false (VNext _ | VComplete | VError _)) | RO (FEmit _ (VCall _)) => false | _ => true end.
Record J (st : rst) (stack : list ritem) (tr : list revent) : Prop := {
  j_stack : exists it t, stack = it :: t /\ proper it = true /\ forallb wait t = true /\
    answer sid (out_calls tr) = answers tr ++ pend it /\ existsb closes (out_calls tr) = f_closed (r_out st) || top_closes it
    /\ (match it with RO (FCommit _) => f_closed (r_out st) = false | _ => True end);
  j_bottom : exists t, stack = t ++ [RO FUser] }.

Lemma upto_snoc : forall {T E} (l : list (fcall T E)) c, upto (l ++ [c]) = if existsb closes l then upto l else upto l ++ [c].
Proof.
  induction l as [|x l IH]; intro c; cbn [app upto existsb].
  - destruct (closes c); reflexivity.
  - destruct (closes x); [reflexivity|]. cbn [orb]. rewrite IH. destruct (existsb closes l); reflexivity.
Qed.
Lemma wait_cases : forall it, wait it = true ->
  match it with RO (FCommit _) => False | RO (FEmit _ (VNext _ | VComplete | VError _ | VCall _)) => False | _ => True end.
Proof. intros it H. destruct it as [it|it| | |c]; try exact Logic.I. destruct it as [| |c|c|on e| | | | | | |]; try exact Logic.I; [destruct c; discriminate H|]. destruct e; try exact Logic.I; discriminate H. Qed.
Lemma wait_pend : forall it, wait it = true -> pend it = [].
Proof. intros it H. apply wait_cases in H. destruct it as [it|it| | |c]; try reflexivity. destruct it as [| |c|c|on e| | | | | | |]; try reflexivity; [contradiction|]. destruct on; [|reflexivity]. destruct e; reflexivity || contradiction. Qed.
Lemma wait_proper : forall it, wait it = true -> proper it = true.
Proof. intros it H. apply wait_cases in H. destruct it as [it|it| | |c]; try reflexivity. destruct it as [| |c|c|on e| | | | | | |]; try reflexivity. destruct on, e; reflexivity || contradiction. Qed.
Lemma wait_closes : forall it, wait it = true -> top_closes it = false.
Proof. intros it H. apply wait_cases in H. destruct it as [it|it| | |c]; try reflexivity. destruct it as [| |c|c|on e| | | | | | |]; try reflexivity. contradiction. Qed.
Lemma wait_commit : forall it (P : Prop), wait it = true -> match it with RO (FCommit _) => P | _ => True end.
Proof. intros it P H. apply wait_cases in H. destruct it as [it|it| | |c]; try exact Logic.I. destruct it as [| |c|c|on e| | | | | | |]; try exact Logic.I. contradiction. Qed.
Lemma wait_RI : forall its, forallb wait (map RI its) = true.
Proof. induction its; [reflexivity|assumption]. Qed.

(** Steps of one thread, sharper. *)
Inductive move (st : rst) (it : ritem) (st' : rst) (its : list ritem) (evs : list revent) : Prop :=
| m_calm : pend it = [] -> top_closes it = false -> answers evs = [] -> forallb wait its = true ->
    (out_calls evs = [] /\ f_closed (r_out st') = f_closed (r_out st) \/
     exists c, out_calls evs = [c] /\ (owed sid c = [] \/ f_closed (r_out st) = true) /\ f_closed (r_out st') = f_closed (r_out st) || closes c) -> move st it st' its evs
| m_call : forall c, pend it = [] -> top_closes it = false -> st' = st -> answers evs = [] -> out_calls evs = [c] -> f_closed (r_out st) = false -> (its = [RO (FCommit c)]) -> move st it st' its evs
| m_commit : forall c, it = RO (FCommit c) -> out_calls evs = [] -> answers evs = [] ->
    f_closed (r_out st') = f_closed (r_out st) || closes c -> (exists x y, its = x :: y /\ pend x = owed sid c /\ proper x = true /\ top_closes x = false /\ (match x with RO (FCommit _) => False | _ => True end) /\ forallb wait y = true) \/ (owed sid c = [] /\ forallb wait its = true) -> move st it st' its evs
| m_emit : forall e f, it = RO (FEmit true e) -> frame_of sid e = Some f -> st' = st -> its = [] -> answers evs = [f] -> out_calls evs = [] -> move st it st' its evs.

Lemma st_out : forall a b c, r_out (mkR a b c) = a. Proof. reflexivity. Qed.

Lemma step_move : forall st it st' its new evs, proper it = true -> rstep st it = Some (st', its, new, evs) -> move st it st' its evs.
Proof.
  intros st it st' its new evs P X. destruct it as [it|it| | |c].
  - destruct it as [|n|c|c|on e| | |n|n|n|sg|sg]; try discriminate X.
    + destruct c; cbn [ResponderModel.rstep fstep] in X;
      repeat match type of X with context [if ?b then _ else _] => let B := fresh "B" in destruct b eqn:B end; try discriminate X; cbn [map] in X; injection X as <- <- <- <-; rewrite ?st_eta;
      first [ eapply m_call; try reflexivity; assumption
            | apply m_calm; try reflexivity; right; eexists; split; [reflexivity|]; split; [first [left; reflexivity|right; assumption]|]; cbn [r_out f_closed set_closed set_cbs closes]; rewrite ?orb_false_r, ?orb_true_r; first [reflexivity|assumption|match goal with H : f_closed _ = true |- _ => rewrite H; reflexivity end] ].
    + destruct c; cbn [ResponderModel.rstep fstep] in X; try discriminate X; cbn [map] in X; injection X as <- <- <- <-; eapply m_commit; try reflexivity; cbn [r_out f_closed set_closed set_n closes]; rewrite ?orb_false_r, ?orb_true_r; try reflexivity.
      * left. eexists _, _. split; [reflexivity|]. destruct v. repeat split.
      * left. eexists _, _. split; [reflexivity|]. repeat split.
      * left. eexists _, _. split; [reflexivity|]. repeat split.
      * right. split; [reflexivity|]. destruct (0 <? f_n (r_out st))%Z; reflexivity.
    + destruct on.
      * cbn [ResponderModel.rstep] in X. destruct (frame_of sid e) as [f|] eqn:F.
        -- injection X as <- <- <- <-. eapply m_emit; try reflexivity; [exact F| |destruct e; discriminate F || reflexivity]. unfold answers. cbn [sent_frames flat_map app filter]. rewrite (frame_answer e f F). reflexivity.
        -- destruct e; try discriminate F; try discriminate P; cbn [fstep map] in X; injection X as <- <- <- <-; apply m_calm; try reflexivity; left; split; reflexivity.
      * cbn [ResponderModel.rstep fstep map] in X. injection X as <- <- <- <-. apply m_calm; try reflexivity. left; split; reflexivity.
    + cbn [ResponderModel.rstep fstep] in X. injection X as <- <- <- <-. apply m_calm; try reflexivity; [destruct (f_n (r_out st) =? 0)%Z; reflexivity|]. left; split; reflexivity.
    + cbn in X. injection X as <- <- <- <-. apply m_calm; try reflexivity. left; split; reflexivity.
    + cbn [ResponderModel.rstep fstep] in X. injection X as <- <- <- <-. apply m_calm; try reflexivity; [destruct (f_req (r_out st)); reflexivity|]. left; split; reflexivity.
    + cbn [ResponderModel.rstep fstep] in X. destruct sync; injection X as <- <- <- <-; apply m_calm; try reflexivity; left; split; reflexivity.
    + cbn [ResponderModel.rstep fstep] in X. destruct (f_req (r_out st)); [|discriminate X]. injection X as <- <- <- <-; apply m_calm; try reflexivity; left; split; reflexivity.
    + cbn [ResponderModel.rstep fstep] in X. injection X as <- <- <- <-; apply m_calm; try reflexivity; left; split; reflexivity.
    + cbn [ResponderModel.rstep fstep] in X. injection X as <- <- <- <-; apply m_calm; try reflexivity; [clear; induction (f_cbs (r_out st)); [reflexivity|assumption]|left; split; reflexivity].
  - assert (Y : r_out st' = r_out st /\ answers evs = [] /\ out_calls evs = [] /\ forallb wait its = true).
    { assert (G : forall i, match fstep sync gin (r_in st) i with
         | Some (fl, its, new, evs) => Some (mkR (r_out st) fl (r_sub st), map RI its, map (map RI) new, map RIV evs)
         | None => None end = Some (st', its, new, evs) -> r_out st' = r_out st /\ answers evs = [] /\ out_calls evs = [] /\ forallb wait its = true).
      { intros i Z. destruct (fstep sync gin (r_in st) i) as [[[[fl is] nw] ev]|]; [|discriminate Z]. injection Z as <- <- <- <-. split; [reflexivity|]. split; [apply no_answers, sent_RIV|]. split; [apply calls_RIV|apply wait_RI]. }
      destruct it as [|n|c|c|on e| | |n|n|n|sg|sg]; try (match type of X with ResponderModel.rstep _ _ _ _ _ (_ ?i) = _ => exact (G i X) end).
      - destruct c; try (match type of X with ResponderModel.rstep _ _ _ _ _ (_ ?i) = _ => exact (G i X) end). cbn [ResponderModel.rstep] in X. destruct (fstep sync gin (r_in st) (FDo FSubscribe)) as [[[[fl is] nw] ev]|]; [|discriminate X]. injection X as <- <- <- <-. split; [reflexivity|]. split; [apply no_answers, sent_RIV|]. split; [apply calls_RIV|reflexivity].
      - destruct on; [|match type of X with ResponderModel.rstep _ _ _ _ _ (_ ?i) = _ => exact (G i X) end]. destruct e; try (match type of X with ResponderModel.rstep _ _ _ _ _ (_ ?i) = _ => exact (G i X) end); cbn [ResponderModel.rstep] in X; injection X as <- <- <- <-; repeat split. }
    destruct Y as (Y1 & Y2 & Y3 & Y4). apply m_calm; try reflexivity; try assumption. left. rewrite Y1. auto.
  - cbn in X. injection X as <- <- <- <-. apply m_calm; try reflexivity. left; split; reflexivity.
  - cbn in X. injection X as <- <- <- <-. apply m_calm; try reflexivity. left; split; reflexivity.
  - destruct c; cbn [ResponderModel.rstep] in X; match type of X with (if ?b then _ else _) = _ => destruct b end; try discriminate X; injection X as <- <- <- <-; apply m_calm; try reflexivity; left; split; reflexivity.
Qed.

Lemma waits_head : forall l, l <> [] -> forallb wait l = true -> exists x t, l = x :: t /\ wait x = true /\ forallb wait t = true.
Proof. intros [|x t] H W; [contradiction|]. cbn [forallb] in W. apply andb_true_iff in W. exists x, t. tauto. Qed.

Lemma J_step : forall st it stack tr st' its new evs, J st (it :: stack) tr -> rstep st it = Some (st', its, new, evs) -> J st' (its ++ stack) (tr ++ evs).
Proof.
  intros st it stack tr st' its new evs [(it' & t' & E & P & W & A & C & K) [b B]] X. injection E as <- <-.
  assert (NE : stack <> []). { intros ->. destruct b as [|x b]; [injection B as ->; discriminate X|]. injection B as _ B. destruct b; discriminate B. }
  assert (B' : exists t, its ++ stack = t ++ [RO FUser]). { destruct b as [|x b]; [injection B as _ ->; contradiction|]. injection B as _ ->. exists (its ++ b). apply app_assoc. }
  destruct (step_move st it st' its new evs P X) as [Pd Tc An Wi Ca|c Pd Tc S An Oc Cd I|c I Oc An Cd M|e f I F S Is An Oc].
  - constructor; [|exact B']. assert (Wa : forallb wait (its ++ stack) = true) by (rewrite forallb_app, Wi, W; reflexivity).
    destruct (waits_head (its ++ stack)) as (x & t & Ex & Wx & Wt); [intro Z; apply app_eq_nil in Z; destruct Z; contradiction|exact Wa|]. exists x, t. split; [exact Ex|]. split; [apply wait_proper; exact Wx|]. split; [exact Wt|].
    rewrite (wait_pend x Wx), (wait_closes x Wx), answers_app, calls_app, An, !app_nil_r, orb_false_r. rewrite Pd, app_nil_r in A. rewrite Tc, orb_false_r in C. split; [|split; [|apply wait_commit; exact Wx]].
    + destruct Ca as [[-> _]|(c & -> & O & _)]; [rewrite app_nil_r; exact A|]. unfold answer. rewrite upto_snoc. fold (out_calls tr). rewrite C. destruct O as [O|O].
      * destruct (f_closed (r_out st)); [exact A|]. rewrite flat_map_app. cbn [flat_map]. rewrite O, !app_nil_r. exact A.
      * rewrite O. exact A.
    + destruct Ca as [[-> ->]|(c & -> & _ & ->)]; [rewrite app_nil_r; exact C|]. rewrite existsb_app, C. cbn [existsb]. rewrite orb_false_r. reflexivity.
  - constructor; [|exact B']. subst its st'. exists (RO (FCommit c)), stack. split; [reflexivity|]. split; [reflexivity|]. split; [exact W|]. rewrite Pd, app_nil_r in A. rewrite Tc, orb_false_r in C.
    rewrite answers_app, calls_app, An, Oc, app_nil_r. split; [|split; [|exact Cd]].
    + unfold answer. rewrite upto_snoc, C, Cd, flat_map_app. cbn [flat_map pend]. rewrite app_nil_r. f_equal. exact A.
    + rewrite existsb_app, C. cbn [existsb top_closes]. rewrite orb_false_r. reflexivity.
  - constructor; [|exact B']. subst it. cbn [pend] in A. cbn [top_closes] in C. rewrite answers_app, calls_app, An, Oc, !app_nil_r. destruct M as [(x & y & -> & Px & Pr & Tx & Kx & Wy)|[O Wi]].
    + exists x, (y ++ stack). split; [reflexivity|]. split; [exact Pr|]. split; [rewrite forallb_app, Wy, W; reflexivity|]. rewrite Px, Tx, orb_false_r, Cd. split; [exact A|]. split; [exact C|]. destruct x as [i|i| | |n]; try exact Logic.I. destruct i; try exact Logic.I. contradiction.
    + assert (Wa : forallb wait (its ++ stack) = true) by (rewrite forallb_app, Wi, W; reflexivity).
      destruct (waits_head (its ++ stack)) as (x & t & Ex & Wx & Wt); [intro Z; apply app_eq_nil in Z; destruct Z; contradiction|exact Wa|]. exists x, t. split; [exact Ex|]. split; [apply wait_proper; exact Wx|]. split; [exact Wt|].
      rewrite (wait_pend x Wx), (wait_closes x Wx), app_nil_r, orb_false_r, Cd. rewrite O, app_nil_r in A. split; [exact A|]. split; [exact C|apply wait_commit; exact Wx].
  - constructor; [|exact B']. subst it st' its. cbn [pend] in A. rewrite F in A. cbn [top_closes] in C. rewrite orb_false_r in C.
    destruct (waits_head stack NE W) as (x & t & Ex & Wx & Wt). exists x, t. split; [exact Ex|]. split; [apply wait_proper; exact Wx|]. split; [exact Wt|].
    rewrite (wait_pend x Wx), (wait_closes x Wx), answers_app, calls_app, An, Oc, !app_nil_r, orb_false_r. split; [exact A|]. split; [exact C|apply wait_commit; exact Wx].
Qed.

Lemma call_wait : forall c, rcall c = true -> wait c = true.
Proof. destruct c as [it|it| | |c]; try reflexivity. destruct it; reflexivity || discriminate. Qed.
Lemma user_wait : forall c, is_ruser c = true -> wait c = true.
Proof. destruct c as [it|it| | |c]; try reflexivity. destruct it; reflexivity || discriminate. Qed.
Lemma single : forall {A} (l : list A) x rest y, l ++ x :: rest = [y] -> l = [] /\ rest = [] /\ x = y.
Proof. intros A [|a l] x rest y H; [injection H as -> ->; auto|]. injection H as _ H. destruct l; discriminate H. Qed.

Lemma reach_J : forall serial st ths tr, rreach serial st ths tr -> forall stack, ths = [stack] -> J st stack tr.
Proof.
  intros serial st ths tr R. induction R as [n|st l u stk rest tr c R IH Hu Hc|st l u stk rest tr R IH Hu Hs|st l it stk rest tr st' its new evs R IH Hs Hb]; intros stack E.
  - destruct n as [|[|n]]; try discriminate E. injection E as <-. constructor; [|exists []; reflexivity]. exists (RO FUser), []. repeat split.
  - apply single in E. destruct E as (-> & -> & <-). destruct (IH _ eq_refl) as [(it' & t' & E & P & W & A & C & K) [b B]]. injection E as <- <-. constructor; [|exists (c :: b); rewrite B; reflexivity].
    exists c, (u :: stk). split; [reflexivity|]. assert (Wc := call_wait c Hc). assert (Wu := user_wait u Hu). split; [apply wait_proper; exact Wc|]. split; [cbn [forallb]; rewrite Wu; exact W|].
    rewrite (wait_pend _ Wc), (wait_closes _ Wc). rewrite (wait_pend _ Wu) in A. rewrite (wait_closes _ Wu) in C. split; [exact A|]. split; [exact C|apply wait_commit; exact Wc].
  - apply single in E. destruct E as (-> & -> & <-). destruct (IH _ eq_refl) as [(it' & t' & E & P & W & A & C & K) [b B]]. injection E as <- <-. destruct (waits_head stk Hs W) as (x & t & -> & Wx & Wt).
    assert (Wu := user_wait u Hu). constructor.
    + exists x, t. split; [reflexivity|]. split; [apply wait_proper; exact Wx|]. split; [exact Wt|]. rewrite (wait_pend _ Wx), (wait_closes _ Wx). rewrite (wait_pend _ Wu) in A. rewrite (wait_closes _ Wu) in C. split; [exact A|]. split; [exact C|apply wait_commit; exact Wx].
    + destruct b as [|y b]; [discriminate B|]. injection B as _ ->. exists b. reflexivity.
  - apply single in E. destruct E as (-> & E & <-). apply app_eq_nil in E. destruct E as [-> ->]. exact (J_step _ _ _ _ _ _ _ _ (IH _ eq_refl) Hs).
Qed.

(** ** Input *)
Lemma demand_app : forall a b, input_demand sid (a ++ b) = input_demand sid a ++ input_demand sid b.
Proof. intros. apply flat_map_app. Qed.
Lemma asks_app : forall a b, asks_input (a ++ b) = asks_input a ++ asks_input b.
Proof. intros. unfold asks_input. rewrite sent_app, filter_app. reflexivity. Qed.
Lemma demand_ROV : forall evs, input_demand sid (map ROV evs) = [].
Proof. induction evs; [reflexivity|assumption]. Qed.
Lemma step_input : forall st it st' its new evs, rstep st it = Some (st', its, new, evs) -> asks_input evs = input_demand sid evs.
Proof.
  intros st it st' its new evs X. destruct it as [it|it| | |c].
  - assert (G : forall i, match fstep sync resp_cfg (r_out st) i with
         | Some (fl, its, new, evs) => Some (mkR fl (r_in st) (r_sub st), map RO its, map (map RO) new, map ROV evs)
         | None => None end = Some (st', its, new, evs) -> asks_input evs = input_demand sid evs).
    { intros i Z. destruct (fstep sync resp_cfg (r_out st) i) as [[[[fl is] nw] ev]|]; [|discriminate Z]. injection Z as <- <- <- <-. rewrite demand_ROV. unfold asks_input. rewrite sent_ROV. reflexivity. }
    destruct it as [|n|c|c|on e| | |n|n|n|sg|sg]; try (match type of X with ResponderModel.rstep _ _ _ _ _ (_ ?i) = _ => exact (G i X) end). destruct on; [|match type of X with ResponderModel.rstep _ _ _ _ _ (_ ?i) = _ => exact (G i X) end]. cbn [ResponderModel.rstep] in X. destruct (frame_of sid e) as [f|] eqn:F; [|exact (G (FEmit true e) X)]. injection X as <- <- <- <-. unfold asks_input. cbn [sent_frames flat_map app filter]. rewrite (frame_answer e f F). reflexivity.
  - assert (D : forall ev, forallb (fun e => match e with VReqSrc _ | VCancelSrc => false | _ => true end) ev = true -> asks_input (map RIV ev) = input_demand sid (map RIV ev)).
    { intros ev. unfold asks_input. rewrite sent_RIV. induction ev as [|e l IH]; [reflexivity|]. cbn [forallb]. rewrite andb_true_iff. intros [A B]. change (map RIV (e :: l)) with ([RIV e] ++ map RIV l). rewrite demand_app, <- (IH B). destruct e; reflexivity || discriminate A. }
    assert (G : forall i, match i with FEmit true (VReqSrc _) | FEmit true VCancelSrc => False | _ => True end -> match fstep sync gin (r_in st) i with
         | Some (fl, its, new, evs) => Some (mkR (r_out st) fl (r_sub st), map RI its, map (map RI) new, map RIV evs)
         | None => None end = Some (st', its, new, evs) -> asks_input evs = input_demand sid evs).
    { intros i Hi Z. destruct (fstep sync gin (r_in st) i) as [[[[fl is] nw] ev]|] eqn:Fs; [|discriminate Z]. injection Z as <- <- <- <-. apply D. clear - Fs Hi. destruct i as [|n|c|c|on e| | |n|n|n|sg|sg]; cbn [fstep] in Fs; try discriminate Fs.
      - destruct c; repeat match type of Fs with context [if ?b then _ else _] => destruct b end; try discriminate Fs; injection Fs as <- <- <- <-; reflexivity.
      - destruct c; try discriminate Fs; injection Fs as <- <- <- <-; reflexivity.
      - destruct on; [destruct e; try contradiction|]; injection Fs as <- <- <- <-; reflexivity.
      - injection Fs as <- <- <- <-; reflexivity.
      - injection Fs as <- <- <- <-; reflexivity.
      - injection Fs as <- <- <- <-; reflexivity.
      - destruct sync; injection Fs as <- <- <- <-; reflexivity.
      - destruct (f_req (r_in st)); [|discriminate Fs]; injection Fs as <- <- <- <-; reflexivity.
      - injection Fs as <- <- <- <-; reflexivity.
      - injection Fs as <- <- <- <-; reflexivity. }
    destruct it as [|n|c|c|on e| | |n|n|n|sg|sg]; try (match type of X with ResponderModel.rstep _ _ _ _ _ (_ ?i) = _ => exact (G i Logic.I X) end).
    + destruct c; try (match type of X with ResponderModel.rstep _ _ _ _ _ (_ ?i) = _ => exact (G i Logic.I X) end). cbn [ResponderModel.rstep fstep] in X. destruct (f_sub (r_in st)); [discriminate X|]. injection X as <- <- <- <-. reflexivity.
    + destruct on; [|match type of X with ResponderModel.rstep _ _ _ _ _ (_ ?i) = _ => exact (G i Logic.I X) end]. destruct e; try (match type of X with ResponderModel.rstep _ _ _ _ _ (_ ?i) = _ => exact (G i Logic.I X) end); cbn [ResponderModel.rstep] in X; injection X as <- <- <- <-; reflexivity.
  - cbn in X. injection X as <- <- <- <-. reflexivity.
  - cbn in X. injection X as <- <- <- <-. reflexivity.
  - destruct c; cbn [ResponderModel.rstep] in X; match type of X with (if ?b then _ else _) = _ => destruct b end; try discriminate X; injection X as <- <- <- <-; reflexivity.
Qed.
Lemma reach_input : forall serial st ths tr, rreach serial st ths tr -> asks_input tr = input_demand sid tr.
Proof.
  intros serial st ths tr R. induction R as [n|st l u stk rest tr c R IH Hu Hc|st l u stk rest tr R IH Hu Hs|st l it stk rest tr st' its new evs R IH Hs Hb]; try assumption; [reflexivity|].
  rewrite asks_app, demand_app, IH. f_equal. exact (step_input _ _ _ _ _ _ Hs).
Qed.
End Proofs.
