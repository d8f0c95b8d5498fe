(** Proofs about monos. *)
From Coq Require Import List Arith Bool Permutation Lia.
From Verif Require Import MonoModel MonoSpec.
Import ListNotations.

Lemma upd_nth : forall {A} (f : A -> A) l i j,
  nth_error (firstn i l ++ match nth_error l i with Some s => [f s] | None => [] end ++ skipn (S i) l) j =
  if Nat.eqb i j then option_map f (nth_error l j) else nth_error l j.
Proof.
  induction l as [|x l IH]; intros i j.
  - destruct i; cbn [firstn nth_error skipn app]; destruct j; cbn; try reflexivity; destruct (i =? j); reflexivity.
  - destruct i as [|i], j as [|j]; cbn [firstn nth_error skipn app Nat.eqb]; try reflexivity. apply IH.
Qed.
Lemma upd_map : forall {A B} (f : A -> A) (h : A -> B) l i, (forall x, h (f x) = h x) ->
  map h (firstn i l ++ match nth_error l i with Some s => [f s] | None => [] end ++ skipn (S i) l) = map h l.
Proof.
  intros A B f h l i H. revert i; induction l as [|x l IH]; intros [|i]; cbn [firstn nth_error skipn app map]; try reflexivity.
  - rewrite H. reflexivity.
  - f_equal. apply IH.
Qed.

Section Proofs.
Context {T E : Type}.
Implicit Types (st : mst T E) (stack : list (mitem T E)) (tr : list (mevent T E)) (c : mcall T E).

Lemma calls_app : forall tr tr', calls (tr ++ tr') = calls tr ++ calls tr'.
Proof. intros. apply flat_map_app. Qed.
Lemma find_app : forall {A} (p : A -> bool) l l', find p (l ++ l') = match find p l with Some x => Some x | None => find p l' end.
Proof. induction l as [|x l IH]; intro l'; [reflexivity|]. cbn. destruct (p x); [reflexivity|apply IH]. Qed.
Lemma winner_app : forall i tr tr', winner i (tr ++ tr') = match winner i tr with Some x => Some x | None => winner i tr' end.
Proof. intros. unfold winner. rewrite calls_app. apply find_app. Qed.
Lemma seen_app : forall i tr tr', seen i (tr ++ tr') = seen i tr ++ seen i tr'.
Proof. intros. apply filter_app. Qed.
Lemma cfgs_app : forall tr tr', cfgs (tr ++ tr') = cfgs tr ++ cfgs tr'.
Proof. intros. unfold cfgs. rewrite calls_app. apply flat_map_app. Qed.

Definition cfg_of st (i : nat) : mcfg := match nth_error (m_subs st) i with Some s => s_cfg s | None => mkCfg false false false end.

(** The callbacks on [i] the work items stand for. *)
Definition fut1 (g : mcfg) (i : nat) (it : mitem T E) : list (mevent T E) :=
  match it with
  | Emit true e => if about i e then [e] else []
  | Fin j s => if Nat.eqb i j then (if c_finally g then [EvFinally i s] else []) else []
  | Commit c => if ends i c then owed i g c else []
  | _ => []
  end.
Definition fut (g : mcfg) (i : nat) stack : list (mevent T E) := flat_map (fut1 g i) stack.

(** Items on [i]. *)
Definition on (i : nat) (it : mitem T E) : bool :=
  match it with
  | Emit _ e => about i e
  | Fin j _ => Nat.eqb i j
  | Commit c => ends i c
  | _ => false
  end.
Definition is_commit (it : mitem T E) : bool := match it with Commit _ => true | _ => false end.

(** Only handlers are ever queued. *)
Definition is_callback (it : mitem T E) : bool :=
  match it with Emit _ (EvCall _) | Emit _ (EvGot _ _) => false | _ => true end.

Definition closed_as (s : msub T E) c : Prop :=
  s_closed s = true /\ match got c with EvGot v e => s_value s = v /\ s_err s = e | _ => False end.
Definition still_open (s : msub T E) : Prop := s_closed s = false /\ s_value s = None /\ s_err s = None.

Definition sub_inv (s : msub T E) (i : nat) stack tr : Prop :=
  match winner i tr with
  | None => still_open s /\ seen i tr = [] /\ forallb (fun it => negb (on i it)) stack = true
  | Some c => seen i tr ++ fut (s_cfg s) i stack = owed i (s_cfg s) c /\
      match stack with
      | Commit c' :: _ => if ends i c' then c' = c /\ still_open s else closed_as s c
      | _ => closed_as s c
      end
  end.
Record inv st stack tr : Prop := {
  i_cfgs : cfgs tr = map s_cfg (m_subs st);
  i_subs : forall i s, nth_error (m_subs st) i = Some s -> sub_inv s i stack tr;
  i_none : forall i, nth_error (m_subs st) i = None -> winner i tr = None /\ seen i tr = [] /\ forallb (fun it => negb (on i it)) stack = true;
  i_head : forallb (fun it => negb (is_commit it)) (tl stack) = true;
  i_emit : forallb is_callback stack = true }.

Lemma fut_app : forall g i a b, fut g i (a ++ b) = fut g i a ++ fut g i b.
Proof. intros. apply flat_map_app. Qed.
Lemma fut_off : forall g i a, forallb (fun it => negb (on i it)) a = true -> fut g i a = [].
Proof.
  induction a as [|it a IH]; intro H; [reflexivity|]. cbn [forallb] in H. apply andb_true_iff in H as [H1 H2].
  unfold fut in *. cbn [flat_map]. rewrite IH by assumption. rewrite app_nil_r.
  destruct it as [| |c|[]|j s|]; cbn [fut1 on] in *; try reflexivity; try (destruct (about i e); [discriminate|reflexivity]);
  try (destruct (ends i c); [discriminate|reflexivity]); destruct (Nat.eqb i j); [discriminate|reflexivity].
Qed.

(** The part of the invariant a step that does not touch subscriber [i] preserves. *)
Lemma frame_some : forall s i it stack its evs tr,
  on i it = false -> is_commit it = false \/ is_commit it = true ->
  forallb (fun x => negb (on i x)) its = true -> forallb (fun x => negb (is_commit x)) (its ++ stack) = true ->
  winner i evs = None -> seen i evs = [] ->
  sub_inv s i (it :: stack) tr -> sub_inv s i (its ++ stack) (tr ++ evs).
Proof.
  intros s i it stack its evs tr O _ O' NC W S H. unfold sub_inv in *. rewrite winner_app.
  rewrite W. rewrite seen_app, S, app_nil_r.
  destruct (winner i tr) as [c|].
  - destruct H as [H1 H2]. split.
    + rewrite fut_app, (fut_off _ _ its) by assumption. rewrite app_nil_l.
      etransitivity; [|exact H1]. unfold fut. cbn [flat_map]. f_equal.
      assert (X : fut (s_cfg s) i [it] = []) by (apply fut_off; cbn [forallb]; rewrite O; reflexivity).
      unfold fut in X. cbn [flat_map] in X. rewrite app_nil_r in X. rewrite X. reflexivity.
    + assert (C : closed_as s c).
      { destruct it as [| |c'| | |]; try exact H2. cbn [on] in O. rewrite O in H2. exact H2. }
      destruct (its ++ stack) as [|[| |c'| | |] r] eqn:Eq; try exact C. cbn in NC. discriminate.
  - destruct H as (H1 & H2 & H3). split; [assumption|]. split; [assumption|].
    rewrite forallb_app, O'. cbn [forallb] in H3. apply andb_true_iff in H3 as [_ H3]. exact H3.
Qed.

Lemma frame_none : forall i it stack its evs tr,
  forallb (fun x => negb (on i x)) its = true -> winner i evs = None -> seen i evs = [] ->
  winner i tr = None /\ seen i tr = [] /\ forallb (fun x => negb (on i x)) (it :: stack) = true ->
  winner i (tr ++ evs) = None /\ seen i (tr ++ evs) = [] /\ forallb (fun x => negb (on i x)) (its ++ stack) = true.
Proof.
  intros i it stack its evs tr O W S (H1 & H2 & H3). rewrite winner_app, H1, seen_app, H2, S, forallb_app, O.
  cbn [forallb] in H3. apply andb_true_iff in H3 as [_ H3]. repeat split; assumption.
Qed.

Lemma nth_None : forall {A} (l : list A) i, nth_error l i = None <-> length l <= i.
Proof. intros. apply nth_error_None. Qed.

(** A step that changes no subscriber. *)
Lemma same_subs_step : forall st st' it stack its evs tr, inv st (it :: stack) tr ->
  m_subs st' = m_subs st -> is_commit it = false ->
  forallb (fun x => negb (is_commit x)) its = true ->
  (forall i, forallb (fun x => negb (on i x)) its = true) -> (forall i, on i it = false) ->
  (forall i, winner i evs = None) -> (forall i, seen i evs = []) -> cfgs evs = [] -> forallb is_callback its = true ->
  inv st' (its ++ stack) (tr ++ evs).
Proof.
  intros st st' it stack its evs tr [I1 I2 I3 I4 I5] Es C C' O O' W S G CB. cbn [tl] in I4.
  assert (NC : forallb (fun x => negb (is_commit x)) (its ++ stack) = true) by (rewrite forallb_app, C'; exact I4).
  constructor; rewrite ?Es.
  - rewrite cfgs_app, G, app_nil_r. assumption.
  - intros i s H. apply (frame_some s i it); auto.
  - intros i H. apply (frame_none i it); auto.
  - destruct (its ++ stack); [reflexivity|]. cbn [tl forallb] in *. apply andb_true_iff in NC. apply NC.
  - rewrite forallb_app, CB. cbn [forallb] in I5. apply andb_true_iff in I5. apply I5.
Qed.

(** A call that finds a subscription open and commits to it. *)
Lemma enter_step : forall st c i stack tr s, ends i c = true -> inv st (Do c :: stack) tr ->
  nth_error (m_subs st) i = Some s -> s_closed s = false ->
  inv st ([Commit c] ++ stack) (tr ++ [EvCall c]).
Proof.
  intros st c i stack tr s En [I1 I2 I3 I4 I5] Es C. cbn [tl] in I4.
  assert (Only : forall j, ends j c = Nat.eqb i j).
  { intro j. destruct c; cbn [ends] in *; try discriminate; rewrite Nat.eqb_eq in En; subst; apply Nat.eqb_sym. }
  assert (G : cfgs [EvCall c] = []) by (destruct c; try discriminate En; reflexivity).
  constructor.
  - rewrite cfgs_app, G, app_nil_r. assumption.
  - intros j t H. specialize (I2 j t H). unfold sub_inv in *. rewrite winner_app, seen_app.
    change (seen j [EvCall c]) with (@nil (mevent T E)). rewrite app_nil_r. cbn [app].
    unfold winner at 2. cbn [calls flat_map find app]. rewrite Only.
    destruct (Nat.eqb_spec i j) as [<-|N].
    + assert (t = s) by congruence. subst t. destruct (winner i tr) as [c'|] eqn:W.
      * exfalso. destruct I2 as [_ [H2 _]]. congruence.
      * destruct I2 as (H1 & H2 & H3). rewrite H2. cbn [app]. unfold fut. cbn [flat_map fut1]. rewrite Only, Nat.eqb_refl.
        cbn [forallb on negb andb] in H3. fold (fut (s_cfg s) i stack). rewrite (fut_off _ _ stack H3), app_nil_r. auto.
    + assert (X : fut (s_cfg t) j (Commit c :: stack) = fut (s_cfg t) j stack).
      { unfold fut. cbn [flat_map fut1]. rewrite Only. destruct (Nat.eqb_spec i j); [contradiction|reflexivity]. }
      destruct (winner j tr) as [c'|] eqn:W; [|].
      * rewrite X. exact I2.
      * cbn [forallb on negb andb] in *. rewrite Only. destruct (Nat.eqb_spec i j); [contradiction|]. exact I2.
  - intros j H. destruct (I3 j H) as (W & S & F). rewrite winner_app, W, seen_app, S. cbn [app].
    assert (N : i <> j) by (intros ->; congruence).
    unfold winner. cbn [calls flat_map find app]. rewrite Only. cbn [forallb on negb andb] in *. rewrite Only.
    destruct (Nat.eqb_spec i j); [contradiction|]. repeat split; auto.
  - exact I4.
  - exact I5.
Qed.

(** The assignments of the winning call. *)
Lemma commit_step : forall st c i stack tr (f : msub T E -> msub T E) its, ends i c = true -> inv st (Commit c :: stack) tr ->
  (forall x, s_cfg (f x) = s_cfg x) -> (forall x, still_open x -> closed_as (f x) c) ->
  forallb (fun x => negb (is_commit x)) its = true -> forallb is_callback its = true ->
  (forall j, i <> j -> forallb (fun x => negb (on j x)) its = true) ->
  (forall x, nth_error (m_subs st) i = Some x -> fut (s_cfg x) i its = owed i (s_cfg x) c) ->
  inv (upd_sub st i f) (its ++ stack) tr.
Proof.
  intros st c i stack tr f its En [I1 I2 I3 I4 I5] Hf Hc NC CB Off Fut. cbn [tl] in I4.
  assert (Only : forall j, ends j c = Nat.eqb i j).
  { intro j. destruct c; cbn [ends] in *; try discriminate; rewrite Nat.eqb_eq in En; subst; apply Nat.eqb_sym. }
  assert (NC' : forallb (fun x => negb (is_commit x)) (its ++ stack) = true) by (rewrite forallb_app, NC; exact I4).
  constructor.
  - rewrite I1. unfold upd_sub. cbn [m_subs]. symmetry. apply upd_map. assumption.
  - intros j t H. unfold upd_sub in H. cbn [m_subs] in H. rewrite upd_nth in H. destruct (Nat.eqb_spec i j) as [<-|N].
    + destruct (nth_error (m_subs st) i) as [x|] eqn:Ex; [|discriminate]. cbn [option_map] in H. injection H as <-.
      specialize (I2 i x Ex). specialize (Fut x eq_refl). unfold sub_inv in *. destruct (winner i tr) as [c'|] eqn:W.
      * destruct I2 as [H1 H2]. rewrite En in H2. destruct H2 as [-> O]. rewrite Hf. split.
        -- rewrite fut_app, Fut. etransitivity; [|exact H1]. f_equal. unfold fut. cbn [flat_map fut1]. rewrite En. reflexivity.
        -- specialize (Hc x O). destruct (its ++ stack) as [|[| |c''| | |] r] eqn:Eq; try exact Hc. cbn in NC'. discriminate.
      * exfalso. destruct I2 as (_ & _ & H3). cbn [forallb on] in H3. rewrite En in H3. discriminate.
    + rewrite <- (app_nil_r tr). apply (frame_some t j (Commit c)); auto.
      cbn [on]. rewrite Only. destruct (Nat.eqb_spec i j); [contradiction|reflexivity].
  - intros j H. unfold upd_sub in H. cbn [m_subs] in H. rewrite upd_nth in H. destruct (Nat.eqb_spec i j) as [Eij|N].
    + subst j. destruct (nth_error (m_subs st) i) eqn:Ex; [discriminate|]. destruct (I3 i Ex) as (_ & _ & F).
      cbn [forallb on] in F. rewrite En in F. discriminate.
    + rewrite <- (app_nil_r tr). apply (frame_none j (Commit c)); auto.
  - destruct (its ++ stack); [reflexivity|]. cbn [tl forallb] in *. apply andb_true_iff in NC'. apply NC'.
  - rewrite forallb_app, CB. cbn [forallb] in I5. apply andb_true_iff in I5. apply I5.
Qed.

Lemma map_off : forall i sg (l : list nat), forallb (fun x : mitem T E => negb (on i x)) (map (fun k => Emit true (EvNotify k sg)) l) = true.
Proof. intros. rewrite forallb_forall. intros x H. apply in_map_iff in H as (k & <- & _). reflexivity. Qed.
Lemma map_nc : forall sg (l : list nat), forallb (fun x : mitem T E => negb (is_commit x)) (map (fun k => Emit true (EvNotify k sg)) l) = true.
Proof. intros. rewrite forallb_forall. intros x H. apply in_map_iff in H as (k & <- & _). reflexivity. Qed.

Lemma map_cb : forall sg (l : list nat), forallb is_callback (map (fun k => Emit true (EvNotify k sg)) l : list (mitem T E)) = true.
Proof. intros. rewrite forallb_forall. intros x H. apply in_map_iff in H as (k & <- & _). reflexivity. Qed.
Lemma sub_inv_ext : forall (s s' : msub T E) i stack tr, s_cfg s' = s_cfg s -> s_closed s' = s_closed s -> s_value s' = s_value s -> s_err s' = s_err s ->
  sub_inv s i stack tr -> sub_inv s' i stack tr.
Proof. intros s s' i stack tr A B C D. unfold sub_inv, closed_as, still_open. rewrite A, B, C, D. auto. Qed.

Lemma closed_step : forall st c i stack tr s, ends i c = true -> inv st (Do c :: stack) tr ->
  nth_error (m_subs st) i = Some s -> s_closed s = true -> inv st ([] ++ stack) (tr ++ [EvCall c]).
Proof.
  intros st c i stack tr s En [I1 I2 I3 I4 I5] Es C. cbn [tl] in I4.
  assert (Only : forall j, ends j c = Nat.eqb i j).
  { intro j. destruct c; cbn [ends] in *; try discriminate; rewrite Nat.eqb_eq in En; subst; apply Nat.eqb_sym. }
  assert (G : cfgs [EvCall c] = []) by (destruct c; try discriminate En; reflexivity).
  assert (X : forall j, winner j [EvCall c] = if Nat.eqb i j then Some c else None).
  { intro j. unfold winner. cbn [calls flat_map find app]. rewrite Only. reflexivity. }
  constructor.
  - rewrite cfgs_app, G, app_nil_r. assumption.
  - intros j t H. destruct (Nat.eqb_spec i j) as [<-|N].
    + assert (t = s) by congruence. subst t. specialize (I2 i s Es). unfold sub_inv in *. rewrite winner_app, seen_app.
      cbn [app]. change (seen i [EvCall c]) with (@nil (mevent T E)). rewrite app_nil_r.
      destruct (winner i tr) as [c'|]; [|destruct I2 as [[I2 _] _]; congruence].
      destruct I2 as [H1 H2]. split; [exact H1|]. destruct stack as [|[| |c''| | |] r]; try exact H2. cbn in I4. discriminate.
    + apply (frame_some t j (Do c)); auto. rewrite X. destruct (Nat.eqb_spec i j); [contradiction|reflexivity].
  - intros j H. apply (frame_none j (Do c)); auto. rewrite X. destruct (Nat.eqb_spec i j); [subst; congruence|reflexivity].
  - cbn [app]. destruct stack; [reflexivity|]. cbn [tl forallb] in *. apply andb_true_iff in I4. apply I4.
  - exact I5.
Qed.

Lemma inv_step : forall st it stack tr st' its evs, inv st (it :: stack) tr -> mstep st it = Some (st', its, evs) ->
  inv st' (its ++ stack) (tr ++ evs).
Proof.
  intros st it stack tr st' its evs I H.
  assert (Term : forall i c, ends i c = true -> it = Do c ->
    match nth_error (m_subs st) i with None => None | Some s => if s_closed s then Some (st, [], [EvCall c]) else Some (st, [Commit c], [EvCall c]) end
      = Some (st', its, evs) -> inv st' (its ++ stack) (tr ++ evs)).
  { intros i c En -> X. destruct (nth_error (m_subs st) i) as [s|] eqn:Es; [|discriminate].
    destruct (s_closed s) eqn:C; injection X as <- <- <-; [apply (closed_step st c i stack tr s)|apply (enter_step st c i stack tr s)]; assumption. }
  destruct it as [|c|c|b e|i sg|sg]; cbn [mstep] in H; [discriminate|..].
  - destruct c as [g| | |i v|i e|i].
    + injection H as <- <- <-. destruct I as [I1 I2 I3 I4 I5]. cbn [tl] in I4. constructor; cbn [m_subs].
      * rewrite cfgs_app, I1, map_app. reflexivity.
      * intros i s H. destruct (Nat.lt_ge_cases i (length (m_subs st))) as [L|L].
        -- rewrite nth_error_app1 in H by assumption. apply (frame_some s i (Do (CSubscribe g))); auto.
        -- rewrite nth_error_app2 in H by assumption. apply nth_None in L. destruct (I3 i L) as (W & S & F).
           destruct (i - length (m_subs st)) as [|k]; [|destruct k; discriminate]. injection H as <-.
           unfold sub_inv. rewrite winner_app, W, seen_app, S. cbn. repeat split; assumption.
      * intros i H. apply (frame_none i (Do (CSubscribe g))); auto. apply I3. apply nth_None. apply nth_None in H. rewrite app_length in H. lia.
      * cbn [app tl]. exact I4.
      * exact I5.
    + destruct (rev (m_subs st)) as [|s r].
      { injection H as <- <- <-. apply (same_subs_step st _ (Do CNotify)); auto. }
      destruct (s_closed s); injection H as <- <- <-; apply (same_subs_step st _ (Do CNotify)); auto.
    + destruct (rev (m_subs st)) as [|s r]; [discriminate|].
      destruct (s_closed s); [|discriminate]. injection H as <- <- <-. apply (same_subs_step st _ (Do CGet)); auto.
    + apply (Term i (CSuccess i v)); [apply Nat.eqb_refl|reflexivity|exact H].
    + apply (Term i (CError i e)); [apply Nat.eqb_refl|reflexivity|exact H].
    + apply (Term i (CCancel i)); [apply Nat.eqb_refl|reflexivity|exact H].
  - destruct c as [g| | |i v|i e|i]; try discriminate; destruct (nth_error (m_subs st) i) as [s|] eqn:Es; try discriminate;
      injection H as <- <- <-; rewrite app_nil_r.
    + apply (commit_step st (CSuccess i v)); auto; try (apply Nat.eqb_refl).
      * intros x (A & B & C). repeat split; assumption.
      * intros j N. cbn. destruct (Nat.eqb_spec j i); [congruence|reflexivity].
      * intros x Ex. assert (x = s) by congruence. subst x. unfold fut, owed. cbn [flat_map fut1 about].
        rewrite Nat.eqb_refl, app_nil_r. destruct (c_success (s_cfg s)); reflexivity.
    + apply (commit_step st (CError i e)); auto; try (apply Nat.eqb_refl).
      * intros x (A & B & C). repeat split; assumption.
      * intros j N. cbn. destruct (Nat.eqb_spec j i); [congruence|reflexivity].
      * intros x Ex. assert (x = s) by congruence. subst x. unfold fut, owed. cbn [flat_map fut1 about].
        rewrite Nat.eqb_refl, app_nil_r. destruct (c_error (s_cfg s)); reflexivity.
    + apply (commit_step st (CCancel i)); auto; try (apply Nat.eqb_refl).
      * intros x (A & B & C). repeat split; assumption.
      * intros j N. cbn. destruct (Nat.eqb_spec j i); [congruence|reflexivity].
      * intros x Ex. unfold fut, owed. cbn [flat_map fut1 about]. rewrite Nat.eqb_refl, app_nil_r. reflexivity.
  - (* Emit *)
    destruct I as [I1 I2 I3 I4 I5]. cbn [tl] in I4. cbn [forallb] in I5. apply andb_true_iff in I5 as [Cb I5].
    assert (NoW : forall i, winner i [e] = None) by (intro i; destruct e; cbn in *; congruence || reflexivity).
    assert (NoG : cfgs [e] = []) by (destruct e; cbn in *; congruence || reflexivity).
    destruct b; injection H as <- <- <-.
    + constructor.
      * rewrite cfgs_app, NoG, app_nil_r. exact I1.
      * intros i s Hs. destruct (about i e) eqn:A; [|apply (frame_some s i (Emit true e)); auto; cbn; rewrite A; reflexivity].
        specialize (I2 i s Hs). unfold sub_inv in *. rewrite winner_app, NoW, seen_app. unfold seen at 2. cbn [filter]. rewrite A.
        unfold seen at 3. cbn [filter]. rewrite A.
        destruct (winner i tr) as [c|]; [|destruct I2 as (_ & _ & I2); cbn [forallb on] in I2; rewrite A in I2; discriminate].
        cbn [app]. destruct I2 as [H1 H2]. split; [|exact H2]. rewrite <- app_assoc. cbn [app]. etransitivity; [|exact H1].
        unfold fut. cbn [flat_map fut1]. rewrite A. reflexivity.
      * intros i Hs. apply (frame_none i (Emit true e)); auto. cbn. destruct (about i e) eqn:A; [|reflexivity].
        destruct (I3 i Hs) as (_ & _ & F). cbn [forallb on] in F. rewrite A in F. discriminate.
      * exact I4.
      * exact I5.
    + constructor.
      * rewrite app_nil_r. exact I1.
      * intros i s Hs. destruct (about i e) eqn:A; [|apply (frame_some s i (Emit false e)); auto].
        specialize (I2 i s Hs). unfold sub_inv in *. rewrite app_nil_r. cbn [app].
        destruct (winner i tr) as [c|]; [|destruct I2 as (_ & _ & I2); cbn [forallb on] in I2; rewrite A in I2; discriminate].
        destruct I2 as [H1 H2]. split; [exact H1|]. destruct stack as [|[| |c''| | |] r]; try exact H2. cbn in I4. discriminate.
      * intros i Hs. apply (frame_none i (Emit false e)); auto.
      * cbn [app]. destruct stack; [reflexivity|]. cbn [tl forallb] in *. apply andb_true_iff in I4. apply I4.
      * exact I5.
  - (* Fin *) destruct (nth_error (m_subs st) i) as [s0|] eqn:E0; [|discriminate]. injection H as <- <- <-. rewrite app_nil_r.
    destruct I as [I1 I2 I3 I4 I5]. cbn [tl] in I4.
    constructor.
    + rewrite I1. unfold upd_sub. cbn [m_subs]. symmetry. apply upd_map. reflexivity.
    + intros j s Hs. unfold upd_sub in Hs. cbn [m_subs] in Hs. rewrite upd_nth in Hs. destruct (Nat.eqb_spec i j) as [<-|N].
      * rewrite E0 in Hs. cbn [option_map] in Hs. injection Hs as <-.
        apply (sub_inv_ext s0); try reflexivity. specialize (I2 i s0 E0). unfold sub_inv in *.
        destruct (winner i tr) as [c|]; [|destruct I2 as (_ & _ & I2); cbn [forallb on] in I2; rewrite Nat.eqb_refl in I2; discriminate].
        destruct I2 as [H1 H2]. split; [|exact H2]. etransitivity; [|exact H1]. unfold fut. cbn [app flat_map fut1 about].
        rewrite Nat.eqb_refl. destruct (c_finally (s_cfg s0)); reflexivity.
      * rewrite <- (app_nil_r tr). apply (frame_some s j (Fin i sg)); auto; cbn; destruct (Nat.eqb_spec j i); congruence || reflexivity.
    + intros j Hs. unfold upd_sub in Hs. cbn [m_subs] in Hs. rewrite upd_nth in Hs. destruct (Nat.eqb_spec i j) as [Eij|N].
      { subst j. rewrite E0 in Hs. discriminate. }
      rewrite <- (app_nil_r tr). apply (frame_none j (Fin i sg)); auto. cbn. destruct (Nat.eqb_spec j i); congruence || reflexivity.
    + exact I4.
    + exact I5.
  - injection H as <- <- <-. apply (same_subs_step st _ (RunCbs sg)); auto; [apply map_nc|intro; apply map_off|apply map_cb].
Qed.

(** * One thread *)
Lemma one_thread : forall {A} (l : list A) x r y, l ++ x :: r = [y] -> l = [] /\ r = [] /\ x = y.
Proof. intros A [|a [|b l]] x r y H; cbn in H; injection H; intros; subst; repeat split; discriminate || auto. Qed.

Definition bottom stack : Prop := exists s, stack = s ++ [User].
Lemma reach_inv_aux : forall st ths tr, mreach st ths tr -> forall stack, ths = [stack] -> inv st stack tr /\ bottom stack.
Proof.
  intros st ths tr H. induction H as [n|st l stack r tr c H IH|st l stack r tr H IH N|st l it stack r tr st' its evs H IH S]; intros stk Es.
  - destruct n as [|[|n]]; try discriminate. injection Es as <-. split; [|exists []; reflexivity]. constructor; try reflexivity.
    + intros i s X. destruct i; discriminate.
    + intros. repeat split.
  - apply one_thread in Es as (-> & -> & <-). destruct (IH _ eq_refl) as [[I1 I2 I3 I4 I5] [b B]]. split.
    2: { exists (Do c :: b). rewrite B. reflexivity. }
    constructor; auto.
  - apply one_thread in Es as (-> & -> & <-). destruct (IH _ eq_refl) as [[I1 I2 I3 I4 I5] [b B]]. cbn [tl] in I4. split.
    2: { destruct b as [|x b]; [injection B as ->; contradiction|]. injection B as <- ->. exists b. reflexivity. }
    constructor; auto.
    + intros i s X. specialize (I2 i s X). unfold sub_inv in *. destruct (winner i tr); [|exact I2].
      destruct I2 as [H1 H2]. split; [exact H1|]. destruct stack as [|[| |c''| | |] q]; try exact H2. cbn in I4. discriminate.
    + destruct stack; [reflexivity|]. cbn [tl forallb] in *. apply andb_true_iff in I4. apply I4.
  - apply one_thread in Es as (-> & -> & <-). destruct (IH _ eq_refl) as [I [b B]]. split; [apply (inv_step st it); assumption|].
    destruct b as [|x b]; [injection B as -> ->; discriminate S|]. injection B as -> ->. exists (its ++ b). apply app_assoc.
Qed.
Lemma reach_inv : forall st stack tr, mreach st [stack] tr -> inv st stack tr.
Proof. intros. apply (reach_inv_aux st [stack] tr); auto. Qed.

Theorem outcome_proof : forall st stack tr i, mreach st [stack] tr ->
  match winner i tr with
  | None => seen i tr = []
  | Some c => exists g, nth_error (cfgs tr) i = Some g /\ is_prefix (seen i tr) (owed i g c) /\
                        (stack = [User] -> seen i tr = owed i g c)
  end.
Proof.
  intros st stack tr i R. destruct (reach_inv _ _ _ R) as [I1 I2 I3 _ _].
  destruct (nth_error (m_subs st) i) as [s|] eqn:Es.
  - specialize (I2 i s Es). unfold sub_inv in I2. destruct (winner i tr) as [c|]; [|apply I2].
    exists (s_cfg s). split; [rewrite I1; apply map_nth_error; assumption|]. destruct I2 as [H _]. split.
    + exists (fut (s_cfg s) i stack). symmetry. exact H.
    + intros ->. rewrite <- H. cbn. symmetry. apply app_nil_r.
  - destruct (I3 i Es) as (-> & H & _). exact H.
Qed.

(** * Get *)
Lemma last_sub : forall {A} (l r : list A) s, rev l = s :: r -> nth_error l (length l - 1) = Some s /\ l <> [].
Proof.
  intros A l r s H. assert (X : l = rev r ++ [s]) by (rewrite <- (rev_involutive l), H; reflexivity).
  rewrite X. split; [|destruct (rev r); discriminate]. rewrite app_length. cbn [length].
  rewrite nth_error_app2 by lia. replace (length (rev r) + 1 - 1 - length (rev r)) with 0 by lia. reflexivity.
Qed.

Theorem get_proof : forall st stack tr, mreach st [Do CGet :: stack] tr ->
  match winner (length (cfgs tr) - 1) tr with
  | Some c => mstep st (Do CGet) = Some (st, [], [EvCall CGet; got c])
  | None => mstep st (Do CGet) = None
  end.
Proof.
  intros st stack tr R. destruct (reach_inv _ _ _ R) as [I1 I2 I3 _ _].
  rewrite I1, map_length. cbn [mstep]. destruct (rev (m_subs st)) as [|s r] eqn:Er.
  - assert (X : m_subs st = []) by (rewrite <- (rev_involutive (m_subs st)), Er; reflexivity).
    rewrite X in *. cbn. destruct (I3 0 eq_refl) as [-> _]. reflexivity.
  - apply last_sub in Er as [Er _]. specialize (I2 _ _ Er). unfold sub_inv in I2.
    destruct (winner (length (m_subs st) - 1) tr) as [c|].
    + destruct I2 as [_ [Hc Hg]]. rewrite Hc. destruct c; cbn in *; destruct Hg as [-> ->]; reflexivity.
    + destruct I2 as [[-> _] _]. reflexivity.
Qed.

(** * Notify *)
Lemma notified_app : forall a b : list (mevent T E), notified (a ++ b) = notified a ++ notified b.
Proof. intros. apply flat_map_app. Qed.
Lemma registered_app : forall a b : list (mevent T E), registered (a ++ b) = registered a + registered b.
Proof. intros. unfold registered. rewrite calls_app, filter_app, app_length. reflexivity. Qed.

Definition pend1 (it : mitem T E) : list nat := match it with Emit true (EvNotify k _) => [k] | _ => [] end.
Definition pend stack : list nat := flat_map pend1 stack.
Definition is_run (it : mitem T E) : bool := match it with Commit _ | Fin _ _ | RunCbs _ => true | _ => false end.
Definition is_fin (it : mitem T E) : bool := match it with Commit _ | Fin _ _ => true | _ => false end.
Definition runs stack : nat := length (filter is_run stack).
Definition fins stack : nat := length (filter is_fin stack).
Lemma pend_app : forall a b : list (mitem T E), pend (a ++ b) = pend a ++ pend b.
Proof. intros. apply flat_map_app. Qed.
Lemma runs_app : forall a b : list (mitem T E), runs (a ++ b) = runs a + runs b.
Proof. intros. unfold runs. rewrite filter_app, app_length. reflexivity. Qed.
Lemma fins_app : forall a b : list (mitem T E), fins (a ++ b) = fins a + fins b.
Proof. intros. unfold fins. rewrite filter_app, app_length. reflexivity. Qed.

Lemma early_app : forall a b : list (mevent T E), early (a ++ b) = match winner 0 a with Some _ => early a | None => early a + early b end.
Proof.
  intros a b. unfold early, winner. rewrite calls_app. induction (calls a) as [|c l IH]; [reflexivity|].
  cbn [app find]. destruct c as [g| | |i v|i e|i]; cbn [early_in ends]; try exact IH; try (destruct i; cbn [Nat.eqb]; [reflexivity|exact IH]).
  rewrite IH. destruct (find (ends 0) l); reflexivity.
Qed.

Definition it_ok c (nb : nat) (it : mitem T E) : Prop :=
  match it with
  | Emit true (EvNotify k s) => s = sig_of c \/ (s = SigComplete /\ nb <= k)
  | Fin _ s | RunCbs s => s = sig_of c
  | _ => True
  end.
Definition ev_ok c (nb : nat) (e : mevent T E) : Prop :=
  match e with EvNotify k s => s = sig_of c \/ (s = SigComplete /\ nb <= k) | _ => True end.
Definition sig_is st (P : signal -> Prop) : Prop := forall s, nth_error (m_subs st) 0 = Some s -> P (s_signal s).

Definition ninv st stack tr : Prop :=
  m_notified st = registered tr /\
  (length (m_subs st) <= 1 ->
   match winner 0 tr with
   | None => early tr = registered tr /\ runs stack = 0 /\ pend stack = [] /\ notified tr = [] /\
             m_callbacks st = seq 0 (registered tr) /\ sig_is st (fun s => s = SigComplete)
   | Some c => (m_callbacks st = seq 0 (early tr) /\ early tr <= registered tr) /\
       (Forall (it_ok c (early tr)) stack /\ Forall (ev_ok c (early tr)) tr) /\
       (sig_is st (fun s => s = SigComplete \/ s = sig_of c) /\ (fins stack = 0 -> sig_is st (fun s => s = sig_of c))) /\
       ((runs stack = 1 /\ Permutation (notified tr ++ pend stack ++ m_callbacks st) (seq 0 (registered tr))) \/
        (runs stack = 0 /\ Permutation (notified tr ++ pend stack) (seq 0 (registered tr))))
   end).

Lemma quiet_items : forall c nb stack, runs stack = 0 -> pend stack = [] -> Forall (it_ok c nb) stack.
Proof.
  intros c nb. induction stack as [|it stack IH]; intros R P; [constructor|].
  unfold runs in R. cbn [filter] in R. cbn [pend flat_map] in P. apply app_eq_nil in P as [P1 P2].
  constructor; [|apply IH; [|exact P2]; destruct it; cbn [is_run] in R; try discriminate R; exact R].
  destruct it as [| | |[] []| |]; cbn in *; try exact I; discriminate.
Qed.
Lemma quiet_events : forall c nb tr, notified tr = [] -> Forall (ev_ok c nb) tr.
Proof.
  intros c nb. induction tr as [|e tr IH]; intro P; [constructor|]. cbn [notified flat_map] in P. apply app_eq_nil in P as [P1 P2].
  constructor; [|apply IH; exact P2]. destruct e; cbn in *; try exact I. discriminate.
Qed.

(** A step that leaves the mono and the bookkeeping alone. *)
Lemma ninv_same : forall st st' it stack its evs tr,
  m_callbacks st' = m_callbacks st -> m_notified st' = m_notified st ->
  length (m_subs st') = length (m_subs st) -> (length (m_subs st) <= 1 -> forall P, sig_is st P -> sig_is st' P) ->
  runs its = runs [it] -> fins its = fins [it] -> pend its = pend [it] ->
  (forall c nb, length (m_subs st) <= 1 -> winner 0 tr = Some c -> it_ok c nb it -> Forall (it_ok c nb) its) -> (forall c nb, Forall (ev_ok c nb) evs) ->
  winner 0 evs = None \/ winner 0 tr <> None -> early evs = 0 -> registered evs = 0 -> notified evs = [] ->
  ninv st (it :: stack) tr -> ninv st' (its ++ stack) (tr ++ evs).
Proof.
  intros st st' it stack its evs tr Hc Hn Hl Hs Hr Hf Hp Hi He Hw Hy Hg Ho [N1 N2]. unfold ninv.
  rewrite Hn, registered_app, Hg, Nat.add_0_r. split; [exact N1|]. intro L. rewrite Hl in L. specialize (N2 L). specialize (Hs L).
  rewrite winner_app, early_app, notified_app, Ho, app_nil_r, Hc, Hy, Nat.add_0_r.
  change (it :: stack) with ([it] ++ stack) in N2. rewrite runs_app, pend_app, <- Hr, <- Hp, <- runs_app, <- pend_app in N2.
  rewrite fins_app, <- Hf, <- fins_app in N2.
  destruct (winner 0 tr) as [c|] eqn:W.
  - destruct N2 as (A & [B1 B2] & (C1 & C2) & D). split; [exact A|]. split; [|split; [split|exact D]].
    + split; apply Forall_app; split; auto.
      * apply Hi; auto. apply Forall_app in B1 as [B1 _]. inversion B1; assumption.
      * apply Forall_app in B1. apply B1.
    + apply Hs, C1.
    + intro F. apply Hs, C2, F.
  - destruct Hw as [->|Hw]; [|congruence].
    destruct N2 as (A & B & C & D & F & G). repeat split; try assumption. apply Hs, G.
Qed.

Lemma sig_same : forall st i (f : msub T E -> msub T E) P, (forall s, s_signal (f s) = s_signal s) -> sig_is st P -> sig_is (upd_sub st i f) P.
Proof.
  intros st i f P Hf H s. unfold upd_sub. cbn [m_subs]. rewrite upd_nth. destruct (i =? 0); [|apply H].
  destruct (nth_error (m_subs st) 0) as [x|] eqn:X; [|discriminate]. cbn. intro Y. injection Y as <-. rewrite Hf. apply H, X.
Qed.
Lemma upd_len : forall st i (f : msub T E -> msub T E), length (m_subs (upd_sub st i f)) = length (m_subs st).
Proof.
  intros. unfold upd_sub. cbn [m_subs]. transitivity (length (map (fun _ => 0) (m_subs st))); [|apply map_length].
  rewrite <- (upd_map f (fun _ => 0) (m_subs st) i) by reflexivity. rewrite map_length. reflexivity.
Qed.
Lemma only0 : forall {A} (l : list A) i s, nth_error l i = Some s -> length l <= 1 -> i = 0.
Proof. intros A l i s H L. assert (i < length l) by (apply nth_error_Some; congruence). lia. Qed.
Lemma pend_map : forall sg l, pend (map (fun k => Emit true (EvNotify k sg)) l : list (mitem T E)) = l.
Proof. induction l as [|k l IH]; [reflexivity|]. unfold pend in *. cbn. rewrite IH. reflexivity. Qed.
Lemma runs_map : forall sg l, runs (map (fun k => Emit true (EvNotify k sg)) l : list (mitem T E)) = 0.
Proof. induction l as [|k l IH]; [reflexivity|]. unfold runs in *. cbn. exact IH. Qed.
Lemma fins_map : forall sg l, fins (map (fun k => Emit true (EvNotify k sg)) l : list (mitem T E)) = 0.
Proof. induction l as [|k l IH]; [reflexivity|]. unfold fins in *. cbn. exact IH. Qed.

Lemma ninv_term : forall st i c stack tr st' its evs, ends i c = true -> inv st (Do c :: stack) tr -> ninv st (Do c :: stack) tr ->
  match nth_error (m_subs st) i with None => None | Some s => if s_closed s then Some (st, [], [EvCall c]) else Some (st, [Commit c], [EvCall c]) end
    = Some (st', its, evs) -> ninv st' (its ++ stack) (tr ++ evs).
Proof.
  intros st i c stack tr st' its evs En I N X.
  assert (R0 : registered [@EvCall T E c] = 0) by (destruct c; try discriminate En; reflexivity).
  assert (Y0 : early [@EvCall T E c] = 0) by (destruct c as [| | |[]|[]|[]]; try discriminate En; reflexivity).
  destruct (nth_error (m_subs st) i) as [s|] eqn:Es; [|discriminate].
  destruct I as [I1 I2 I3 I4 I5]. assert (S := I2 i s Es). unfold sub_inv in S.
  destruct (Nat.le_gt_cases (length (m_subs st)) 1) as [L|L].
  2: { destruct N as [N1 _]. destruct (s_closed s); injection X as <- <- <-; (split; [rewrite registered_app, R0; lia|intro; lia]). }
  assert (i = 0) by (eapply only0; eassumption). subst i.
  destruct (s_closed s) eqn:C; injection X as <- <- <-.
  - apply (ninv_same st st (Do c)); auto; [intros; repeat constructor|].
    right. intro W. rewrite W in S. destruct S as [[S _] _]. congruence.
  - destruct N as [N1 N2]. specialize (N2 L). destruct (winner 0 tr) as [c'|] eqn:W.
    { exfalso. destruct S as [_ [S _]]. congruence. }
    destruct N2 as (A & B & C' & D & F & G).
    unfold runs in B. cbn [filter is_run] in B. fold (runs stack) in B. unfold pend in C'. cbn [flat_map pend1 app] in C'. fold (pend stack) in C'.
    split; [rewrite registered_app, R0; lia|]. intros _. rewrite winner_app, W. unfold winner. cbn [calls flat_map app find]. rewrite En.
    rewrite early_app, W, Y0, Nat.add_0_r, registered_app, R0, Nat.add_0_r, notified_app, D. cbn [app].
    change (notified [EvCall c]) with (@nil nat). cbn [app].
    split; [split; [rewrite A; exact F|lia]|]. split; [split|split; [split|]].
    + constructor; [exact I|]. apply quiet_items; assumption.
    + apply Forall_app; split; [apply quiet_events; assumption|repeat constructor].
    + intros x Hx. left. apply (G x Hx).
    + intro Z. discriminate Z.
    + left. split; [unfold runs; cbn [filter is_run length]; f_equal; exact B|].
      change (pend (Commit c :: stack)) with (pend stack). rewrite C'. cbn [app]. rewrite F. apply Permutation_refl.
Qed.

Lemma ninv_step : forall st it stack tr st' its evs, inv st (it :: stack) tr -> ninv st (it :: stack) tr -> mstep st it = Some (st', its, evs) ->
  ninv st' (its ++ stack) (tr ++ evs).
Proof.
  intros st it stack tr st' its evs IV N H.
  destruct it as [|c|c|b e|i sg|sg]; cbn [mstep] in H; [discriminate|..].
  - destruct c as [g| | |i v|i e|i].
    + injection H as <- <- <-. destruct N as [N1 N2]. destruct IV as [I1 I2 I3 I4 I5]. split; cbn [m_notified m_subs m_callbacks].
      { rewrite registered_app. cbn. lia. }
      rewrite app_length. cbn [length]. intro L. assert (L' : length (m_subs st) <= 1) by lia. specialize (N2 L').
      assert (Z : m_subs st = []) by (apply length_zero_iff_nil; lia).
      assert (W : winner 0 tr = None) by (apply I3; rewrite Z; reflexivity). rewrite W in N2.
      rewrite winner_app, W. cbn. rewrite early_app, W, registered_app, notified_app. destruct N2 as (A & B & C & D & F & G).
      change (early [EvCall (CSubscribe g)]) with 0. cbn. rewrite !Nat.add_0_r, app_nil_r. repeat split; try assumption.
      intros s Hs. cbn in Hs. rewrite Z in Hs. injection Hs as <-. reflexivity.
    + destruct N as [N1 N2]. destruct IV as [I1 I2 I3 I4 I5].
      assert (K : registered (tr ++ [EvCall CNotify]) = S (registered tr)) by (rewrite registered_app; cbn; lia).
      assert (Open : winner 0 tr = None -> length (m_subs st) <= 1 ->
                ninv (mkM (m_subs st) (m_callbacks st ++ [m_notified st]) (S (m_notified st))) ([] ++ stack) (tr ++ [EvCall CNotify])).
      { intros W L. specialize (N2 L). rewrite W in N2. destruct N2 as (A & B & C & D & F & G).
        split; cbn [m_notified m_subs m_callbacks]; rewrite K; [lia|]. intros _. rewrite winner_app, W. cbn [winner calls flat_map app find ends].
        change (find (ends 0) [CNotify]) with (@None (mcall T E)). cbv iota beta.
        rewrite early_app, W, notified_app, D. change (early [EvCall CNotify]) with 1. rewrite A.
        repeat split; auto; try lia. rewrite F, N1. change [registered tr] with (seq (0 + registered tr) 1). rewrite <- seq_app. f_equal. lia. }
      destruct (Nat.le_gt_cases (length (m_subs st)) 1) as [L|L].
      2: { destruct (rev (m_subs st)) as [|s r]; [|destruct (s_closed s)]; injection H as <- <- <-; split; cbn [m_notified m_subs m_callbacks]; rewrite ?K; lia. }
      destruct (rev (m_subs st)) as [|s r] eqn:Er.
      { injection H as <- <- <-. apply Open; [|exact L]. assert (X : m_subs st = []) by (rewrite <- (rev_involutive (m_subs st)), Er; reflexivity).
        apply I3. rewrite X. reflexivity. }
      apply last_sub in Er as [Er NE]. replace (length (m_subs st) - 1) with 0 in Er by lia.
      assert (S := I2 0 s Er). unfold sub_inv in S. destruct (winner 0 tr) as [c|] eqn:W.
      * destruct S as [_ [Hc _]]. rewrite Hc in H. injection H as <- <- <-. specialize (N2 L).
        destruct N2 as ((A1 & A2) & (B1 & B2) & (C1 & C2) & D).
        split; cbn [m_notified m_subs m_callbacks]; rewrite K; [lia|]. intros _. rewrite winner_app, W, early_app, W, notified_app.
        change (notified [EvCall CNotify]) with (@nil nat). rewrite app_nil_r. cbn [app].
        split; [split; [assumption|lia]|]. split; [split|split; [split|]].
        -- constructor; [|inversion B1; assumption]. cbn. specialize (C1 s Er). destruct C1 as [C1|C1]; [right; split; [assumption|lia]|left; assumption].
        -- apply Forall_app; split; [assumption|repeat constructor].
        -- exact C1.
        -- exact C2.
        -- assert (X : seq 0 (S (registered tr)) = seq 0 (registered tr) ++ [m_notified st]).
           { rewrite N1. change [registered tr] with (seq (0 + registered tr) 1). rewrite <- seq_app. f_equal. lia. }
           rewrite X. change (runs (Do CNotify :: stack)) with (runs stack) in D. change (pend (Do CNotify :: stack)) with (pend stack) in D.
           change (runs (Emit true (EvNotify (m_notified st) (s_signal s)) :: stack)) with (runs stack).
           change (pend (Emit true (EvNotify (m_notified st) (s_signal s)) :: stack)) with (m_notified st :: pend stack).
           destruct D as [[D1 D2]|[D1 D2]]; [left|right]; (split; [exact D1|]); cbn [app];
             (etransitivity; [apply Permutation_sym, Permutation_middle|]); (etransitivity; [|apply Permutation_cons_append]); constructor; exact D2.
      * destruct S as [[Hc _] _]. rewrite Hc in H. injection H as <- <- <-. apply Open; auto.
    + destruct (rev (m_subs st)) as [|s r]; [discriminate|].
      destruct (s_closed s); [|discriminate]. injection H as <- <- <-. apply (ninv_same st st (Do CGet)); auto.
      intros; repeat constructor.
    + apply (ninv_term st i (CSuccess i v) stack tr); auto. apply Nat.eqb_refl.
    + apply (ninv_term st i (CError i e) stack tr); auto. apply Nat.eqb_refl.
    + apply (ninv_term st i (CCancel i) stack tr); auto. apply Nat.eqb_refl.
  - assert (Head : forall i s, nth_error (m_subs st) i = Some s -> ends i c = true -> forall c', length (m_subs st) <= 1 -> winner 0 tr = Some c' -> c = c').
    { intros i s Es En c' L W. destruct IV as [I1 I2 I3 I4 I5]. assert (i = 0) by (eapply only0; eassumption). subst i.
      specialize (I2 0 s Es). unfold sub_inv in I2. rewrite W, En in I2. apply I2. }
    destruct c as [g| | |i v|i e|i]; try discriminate; destruct (nth_error (m_subs st) i) as [s|] eqn:Es; try discriminate;
      injection H as <- <- <-.
    + apply (ninv_same st _ (Commit (CSuccess i v))); auto; try reflexivity.
      * apply upd_len.
      * intros _ P HP. apply sig_same; [reflexivity|exact HP].
      * destruct (c_success (s_cfg s)); reflexivity.
      * intros c nb L W _. rewrite <- (Head i s Es (Nat.eqb_refl i) c L W). repeat constructor. destruct (c_success (s_cfg s)); exact I.
    + apply (ninv_same st _ (Commit (CError i e))); auto; try reflexivity.
      * apply upd_len.
      * intros _ P HP. apply sig_same; [reflexivity|exact HP].
      * destruct (c_error (s_cfg s)); reflexivity.
      * intros c nb L W _. rewrite <- (Head i s Es (Nat.eqb_refl i) c L W). repeat constructor. destruct (c_error (s_cfg s)); exact I.
    + apply (ninv_same st _ (Commit (CCancel i))); auto; try reflexivity.
      * apply upd_len.
      * intros _ P HP. apply sig_same; [reflexivity|exact HP].
      * intros c nb L W _. rewrite <- (Head i s Es (Nat.eqb_refl i) c L W). repeat constructor.
  - destruct IV as [I1 I2 I3 I4 I5]. cbn [forallb] in I5. apply andb_true_iff in I5 as [Cb I5].
    destruct b; injection H as <- <- <-.
    + destruct (match e with EvNotify _ _ => true | _ => false end) eqn:Ne.
      * destruct e as [| | | |k sg|]; try discriminate Ne. destruct N as [N1 N2].
        split; [rewrite registered_app; cbn; lia|]. intro L. specialize (N2 L).
        rewrite winner_app, early_app, registered_app, notified_app. change (registered [EvNotify k sg]) with 0. rewrite !Nat.add_0_r.
        destruct (winner 0 tr) as [c|] eqn:W.
        -- destruct N2 as (A & (B1 & B2) & (C1 & C2) & D). inversion B1 as [|x y B3 B4]; subst.
           split; [exact A|]. split; [split|split; [split|]].
           ++ constructor; [exact I|assumption].
           ++ apply Forall_app; split; [assumption|]. constructor; [exact B3|constructor].
           ++ exact C1.
           ++ exact C2.
           ++ change (notified [EvNotify k sg]) with [k]. change (pend ([User] ++ stack)) with (pend stack).
              change (pend (Emit true (EvNotify k sg) :: stack)) with ([k] ++ pend stack) in D.
              change (runs (Emit true (EvNotify k sg) :: stack)) with (runs stack) in D. change (runs ([User] ++ stack)) with (runs stack).
              rewrite <- !app_assoc. rewrite <- app_assoc in D. exact D.
        -- destruct N2 as (_ & _ & C & _). discriminate C.
      * apply (ninv_same st st (Emit true e)); auto; destruct e; try discriminate Ne; try discriminate Cb; try reflexivity; auto;
          intros; repeat constructor.
    + apply (ninv_same st st (Emit false e)); auto.
  - destruct (nth_error (m_subs st) i) as [s0|] eqn:E0; [|discriminate]. injection H as <- <- <-. rewrite app_nil_r.
    destruct N as [N1 N2]. split; [exact N1|]. rewrite upd_len. intro L. specialize (N2 L).
    assert (i = 0) by (eapply only0; eassumption). subst i.
    change (runs (Fin 0 sg :: stack)) with (S (runs stack)) in N2. change (pend (Fin 0 sg :: stack)) with (pend stack) in N2.
    assert (P0 : pend ([Emit (c_finally (s_cfg s0)) (EvFinally 0 sg); RunCbs sg] ++ stack) = pend stack) by (destruct (c_finally (s_cfg s0)); reflexivity).
    rewrite P0. change (runs ([Emit (c_finally (s_cfg s0)) (EvFinally 0 sg); RunCbs sg] ++ stack)) with (S (runs stack)).
    destruct (winner 0 tr) as [c|] eqn:W.
    + destruct N2 as (A & (B1 & B2) & (C1 & C2) & D). inversion B1 as [|x y B3 B4]; subst. cbn [it_ok] in B3.
      assert (Z : sig_is (upd_sub st 0 (fun s => mkSub (s_cfg s) (s_closed s) (s_value s) (s_err s) sg)) (fun s => s = sig_of c)).
      { intros s. unfold upd_sub. cbn [m_subs]. rewrite upd_nth, E0. cbn. intro Y. injection Y as <-. exact B3. }
      split; [exact A|]. split; [split|split; [split|]].
      * cbn [app]. constructor; [destruct (c_finally (s_cfg s0)); exact I|]. constructor; [exact B3|assumption].
      * exact B2.
      * intros s Hs. right. apply (Z s Hs).
      * intros _. exact Z.
      * exact D.
    + destruct N2 as (_ & B & _). discriminate B.
  - injection H as <- <- <-. rewrite app_nil_r. destruct N as [N1 N2]. split; [exact N1|]. intro L. specialize (N2 L).
    change (runs (RunCbs sg :: stack)) with (S (runs stack)) in N2. change (pend (RunCbs sg :: stack)) with (pend stack) in N2.
    change (fins (RunCbs sg :: stack)) with (fins stack) in N2.
    rewrite runs_app, fins_app, pend_app, pend_map, runs_map, fins_map. cbn [Nat.add].
    destruct (winner 0 tr) as [c|] eqn:W.
    + destruct N2 as (A & (B1 & B2) & (C1 & C2) & D). inversion B1 as [|x y B3 B4]; subst. cbn [it_ok] in B3.
      split; [exact A|]. split; [split|split; [split|]].
      * apply Forall_app. split; [|assumption]. apply Forall_forall. intros x Hx. apply in_map_iff in Hx as (k & <- & _). left. exact B3.
      * exact B2.
      * exact C1.
      * exact C2.
      * destruct D as [[D1 D2]|[D1 _]]; [|discriminate D1]. right. split; [lia|]. etransitivity; [|exact D2].
        apply Permutation_app_head, Permutation_app_comm.
    + destruct N2 as (_ & B & _). discriminate B.
Qed.

Lemma reach_ninv_aux : forall st ths tr, mreach st ths tr -> forall stack, ths = [stack] -> ninv st stack tr.
Proof.
  intros st ths tr H. induction H as [n|st l stack r tr c H IH|st l stack r tr H IH N|st l it stack r tr st' its evs H IH S]; intros stk Es.
  - destruct n as [|[|n]]; try discriminate. injection Es as <-. split; [reflexivity|]. intros _. cbn. repeat split. intros s Hs. discriminate.
  - apply one_thread in Es as (-> & -> & <-). destruct (IH _ eq_refl) as [N1 N2]. split; [exact N1|]. intro L. specialize (N2 L).
    destruct (winner 0 tr); [|exact N2]. destruct N2 as (A & (B1 & B2) & C). split; [exact A|]. split; [|exact C].
    split; [constructor; [exact I|exact B1]|exact B2].
  - apply one_thread in Es as (-> & -> & <-). destruct (IH _ eq_refl) as [N1 N2]. split; [exact N1|]. intro L. specialize (N2 L).
    destruct (winner 0 tr); [|exact N2]. destruct N2 as (A & (B1 & B2) & C). split; [exact A|]. split; [|exact C].
    split; [inversion B1; assumption|exact B2].
  - apply one_thread in Es as (-> & -> & <-). apply (ninv_step st it); auto. apply reach_inv. exact H.
Qed.

Theorem notify_proof : forall st stack tr, mreach st [stack] tr -> length (cfgs tr) <= 1 ->
  match winner 0 tr with
  | None => notified tr = []
  | Some c => NoDup (notified tr) /\ (stack = [User] -> Permutation (notified tr) (seq 0 (registered tr))) /\
              (forall k s, In (EvNotify k s) tr -> s = sig_of c \/ (s = SigComplete /\ early tr <= k < registered tr))
  end.
Proof.
  intros st stack tr R L. destruct (reach_inv _ _ _ R) as [I1 _ _ _ _]. rewrite I1, map_length in L.
  destruct (reach_ninv_aux _ _ _ R _ eq_refl) as [_ N]. specialize (N L). destruct (winner 0 tr) as [c|]; [|apply N].
  destruct N as (A & (B1 & B2) & C & D).
  assert (X : NoDup (notified tr) /\ forall k, In k (notified tr) -> k < registered tr).
  { assert (Y : forall l, Permutation (notified tr ++ l) (seq 0 (registered tr)) -> NoDup (notified tr) /\ forall k, In k (notified tr) -> k < registered tr).
    { intros l P. split.
      - apply Permutation_sym in P. assert (Z := Permutation_NoDup P (seq_NoDup _ _)). clear - Z. induction (notified tr) as [|a q IH]; [constructor|].
        cbn in Z. inversion Z as [|? ? Z1 Z2]; subst. constructor; [|apply IH; assumption]. intro Q. apply Z1, in_or_app. left. exact Q.
      - intros k K. assert (In k (seq 0 (registered tr))) by (eapply Permutation_in; [exact P|]; apply in_or_app; left; exact K). apply in_seq in H. lia. }
    destruct D as [[_ D]|[_ D]]; eapply Y; exact D. }
  destruct X as [X1 X2]. split; [exact X1|]. split.
  - intros ->. destruct D as [[D _]|[_ D]]; [discriminate D|]. cbn in D. rewrite app_nil_r in D. exact D.
  - intros k s K. rewrite Forall_forall in B2. assert (Q := B2 _ K). cbn in Q. destruct Q as [Q|[Q1 Q2]]; [left; assumption|right].
    split; [assumption|]. split; [assumption|]. apply X2. unfold notified. apply in_flat_map. exists (EvNotify k s). split; [exact K|left; reflexivity].
Qed.

(** A registration made when nothing is running any more. *)
Theorem notify_after_proof : forall st tr c, mreach st [[User]] tr -> length (cfgs tr) <= 1 -> winner 0 tr = Some c ->
  exists st', mstep st (Do CNotify) = Some (st', [Emit true (EvNotify (registered tr) (sig_of c))], [EvCall CNotify]).
Proof.
  intros st tr c R L W. destruct (reach_inv _ _ _ R) as [I1 I2 I3 _ _]. rewrite I1, map_length in L.
  destruct (reach_ninv_aux _ _ _ R _ eq_refl) as [N1 N]. specialize (N L). rewrite W in N. destruct N as (_ & _ & [_ C] & _). specialize (C eq_refl).
  destruct (nth_error (m_subs st) 0) as [s|] eqn:Es.
  2: { destruct (I3 0 Es) as [X _]. congruence. }
  specialize (C s Es). specialize (I2 0 s Es). unfold sub_inv in I2. rewrite W in I2. destruct I2 as [_ [Hc _]].
  destruct (m_subs st) as [|s' [|]] eqn:Em; [discriminate| |cbn in L; lia]. cbn in Es. injection Es as ->.
  cbn [mstep]. rewrite Em. cbn [rev app]. rewrite Hc, N1, C. eexists; reflexivity.
Qed.

(** * Several threads *)

(** Moves of an explicit schedule: thread [n] makes a call, returns from user code, or runs one item. *)
Inductive move := MCall (n : nat) (c : mcall T E) | MRet (n : nat) | MStep (n : nat).
Definition at_thread (n : nat) (ths : list (list (mitem T E))) : option (list (list (mitem T E)) * list (mitem T E) * list (list (mitem T E))) :=
  match nth_error ths n with Some s => Some (firstn n ths, s, skipn (S n) ths) | None => None end.
Definition do_move (m : move) (x : mst T E * list (list (mitem T E)) * list (mevent T E)) : option (mst T E * list (list (mitem T E)) * list (mevent T E)) :=
  let '(st, ths, tr) := x in
  match m with
  | MCall n c => match at_thread n ths with Some (l, User :: s, r) => Some (st, l ++ (Do c :: User :: s) :: r, tr) | _ => None end
  | MRet n => match at_thread n ths with Some (l, User :: x0 :: s, r) => Some (st, l ++ (x0 :: s) :: r, tr) | _ => None end
  | MStep n =>
    match at_thread n ths with
    | Some (l, it :: s, r) => match mstep st it with Some (st', its, evs) => Some (st', l ++ (its ++ s) :: r, tr ++ evs) | None => None end
    | _ => None
    end
  end.
Fixpoint exec (ms : list move) (x : mst T E * list (list (mitem T E)) * list (mevent T E)) : option (mst T E * list (list (mitem T E)) * list (mevent T E)) :=
  match ms with
  | [] => Some x
  | m :: ms' => match do_move m x with Some y => exec ms' y | None => None end
  end.

Lemma at_thread_spec : forall n ths l s r, at_thread n ths = Some (l, s, r) -> ths = l ++ s :: r.
Proof.
  intros n ths l s r H. unfold at_thread in H. destruct (nth_error ths n) as [x|] eqn:X; [|discriminate]. injection H as <- <- <-.
  revert n X. induction ths as [|a ths IH]; intros [|n] X; try discriminate; cbn in X |- *; [congruence|]. f_equal. apply IH. exact X.
Qed.
Lemma exec_sound : forall ms st ths tr st' ths' tr', mreach st ths tr -> exec ms (st, ths, tr) = Some (st', ths', tr') -> mreach st' ths' tr'.
Proof.
  induction ms as [|m ms IH]; intros st ths tr st' ths' tr' R H; [cbn in H; congruence|].
  cbn [exec] in H. destruct (do_move m (st, ths, tr)) as [[[st1 ths1] tr1]|] eqn:D; [|discriminate].
  apply (IH st1 ths1 tr1); [|exact H]. clear IH H. destruct m as [n c|n|n]; cbn [do_move] in D;
    destruct (at_thread n ths) as [[[l [|it s]] r]|] eqn:A; try discriminate D; apply at_thread_spec in A; subst ths.
  - destruct it; try discriminate D. injection D as <- <- <-. apply m_call. exact R.
  - destruct it; try discriminate D. destruct s; [discriminate D|]. injection D as <- <- <-. apply (m_return st l (m :: s)); [exact R|discriminate].
  - destruct (mstep st it) as [[[st2 its] evs]|] eqn:S; [|discriminate D]. injection D as <- <- <-. eapply m_step; [exact R|exact S].
Qed.

(** * Processor *)
Lemma sink_none : forall (o : T + E), sink_out [] o = [].
Proof. reflexivity. Qed.
Lemma sink_last : forall subs b g (o : T + E), sink_out (subs ++ [(b, g)]) o = subs ++ [if b then (b, g) else (true, g ++ [o])].
Proof.
  intros. unfold sink_out. rewrite rev_app_distr. cbn [rev app]. destruct b; [reflexivity|]. rewrite rev_involutive. reflexivity.
Qed.
Definition keptp (v : option T) (e : option E) : option (T + E) :=
  match v, e with Some x, _ => Some (inl x) | None, Some x => Some (inr x) | None, None => None end.
Lemma sub_cons : forall subs v e h, fold_left pstep (PSubscribe :: h) (mkProc v e subs) =
  fold_left pstep h (mkProc v e (subs ++ [match keptp v e with Some o => (true, [o]) | None => (false, [])end])).
Proof.
  intros. cbn [fold_left pstep p_success p_err p_subs]. destruct v as [v|], e as [e|]; cbn [keptp]; rewrite ?sink_last; reflexivity.
Qed.
Lemma run_kept : forall (h : list (pcall T E)) v e subs g o, keptp v e = Some o ->
  map snd (p_subs (fold_left pstep h (mkProc v e (subs ++ [(true, g)])))) = map snd (subs ++ [(true, g)]) ++ map (fun _ => [o]) (snd (segments h)).
Proof.
  induction h as [|c h IH]; intros v e subs g o K; [cbn; rewrite app_nil_r; reflexivity|].
  destruct c as [|x|x].
  - rewrite sub_cons, K, (IH v e (subs ++ [(true, g)]) [o] o K). cbn [segments]. destruct (segments h) as [a l]. cbn [snd map].
    rewrite !map_app. cbn [map snd]. rewrite <- !app_assoc. reflexivity.
  - cbn [fold_left pstep p_subs p_success p_err]. destruct (subs ++ [(true, g)]) as [|q Q] eqn:Q'; [destruct subs; discriminate|].
    rewrite <- Q', sink_last. rewrite (IH v e subs g o K), Q'. cbn [segments]. destruct (segments h). reflexivity.
  - cbn [fold_left pstep p_subs p_success p_err]. destruct (subs ++ [(true, g)]) as [|q Q] eqn:Q'; [destruct subs; discriminate|].
    rewrite <- Q', sink_last. rewrite (IH v e subs g o K), Q'. cbn [segments]. destruct (segments h). reflexivity.
Qed.
Lemma run_live : forall (h : list (pcall T E)) subs b g,
  map snd (p_subs (fold_left pstep h (mkProc None None (subs ++ [(b, g)])))) =
  map snd subs ++ [if b then g else g ++ firstn 1 (fst (segments h))] ++ map (firstn 1) (snd (segments h)).
Proof.
  induction h as [|c h IH]; intros subs b g.
  - cbn. rewrite map_app. cbn. destruct b; rewrite ?app_nil_r; reflexivity.
  - destruct c as [|x|x].
    + rewrite sub_cons. cbn [keptp]. rewrite (IH (subs ++ [(b, g)]) false []). cbn [segments]. destruct (segments h) as [a l]. cbn [fst snd map firstn app].
      rewrite map_app, <- app_assoc. cbn. destruct b; rewrite ?app_nil_r; reflexivity.
    + cbn [fold_left pstep p_subs p_success p_err]. destruct (subs ++ [(b, g)]) as [|q Q] eqn:Q'; [destruct subs; discriminate|].
      rewrite <- Q', sink_last. cbn [segments]. destruct b; rewrite IH; destruct (segments h); reflexivity.
    + cbn [fold_left pstep p_subs p_success p_err]. destruct (subs ++ [(b, g)]) as [|q Q] eqn:Q'; [destruct subs; discriminate|].
      rewrite <- Q', sink_last. cbn [segments]. destruct b; rewrite IH; destruct (segments h); reflexivity.
Qed.
Lemma run_before : forall (h : list (pcall T E)) v e,
  map snd (p_subs (fold_left pstep h (mkProc v e []))) =
  match keptp (match last_value (fst (segments h)) with Some x => Some x | None => v end) (match last_error (fst (segments h)) with Some x => Some x | None => e end) with
  | Some o => map (fun _ => [o]) (snd (segments h))
  | None => map (firstn 1) (snd (segments h))
  end.
Proof.
  induction h as [|c h IH]; intros v e.
  - cbn. destruct (keptp v e); reflexivity.
  - destruct c as [|x|x].
    + rewrite sub_cons. cbn [segments]. destruct (keptp v e) as [o|] eqn:K.
      * rewrite (run_kept h v e [] [o] o K). destruct (segments h). cbn. rewrite K. reflexivity.
      * assert (v = None /\ e = None) as [-> ->] by (destruct v, e; try discriminate K; auto).
        rewrite (run_live h [] false []). destruct (segments h). reflexivity.
    + cbn [fold_left pstep p_subs p_success p_err segments]. rewrite IH. destruct (segments h) as [a l]. cbn [fst snd last_value last_error].
      destruct (last_value a); reflexivity.
    + cbn [fold_left pstep p_subs p_success p_err segments]. rewrite IH. destruct (segments h) as [a l]. cbn [fst snd last_value last_error].
      destruct (last_error a); reflexivity.
Qed.
Theorem processor_proof : forall h : list (pcall T E), map snd (p_subs (prun h)) = replayed h.
Proof.
  intro h. unfold prun, new_processor. rewrite run_before. unfold replayed. destruct (segments h) as [a l]. cbn [fst snd]. unfold kept, keptp.
  destruct (last_value a), (last_error a); reflexivity.
Qed.

(** * Map *)
Theorem mapped_proof : forall {D} (tx : T -> D + E) st stack tr i c g,
  mreach st [stack] tr -> winner i tr = Some c -> nth_error (cfgs tr) i = Some (mkCfg true (c_error g) (c_finally g)) ->
  is_prefix (flat_map (map_event tx g) (seen i tr)) (map_owed tx i g c) /\
  (stack = [User] -> flat_map (map_event tx g) (seen i tr) = map_owed tx i g c).
Proof.
  intros D tx st stack tr i c g R W G. assert (H := outcome_proof st stack tr i R). rewrite W in H.
  destruct H as (g' & G' & [l P] & Q). assert (g' = mkCfg true (c_error g) (c_finally g)) by congruence. subst g'.
  assert (X : flat_map (map_event tx g) (owed i (mkCfg true (c_error g) (c_finally g)) c) = map_owed tx i g c).
  { destruct c; cbn; try (destruct (tx v)); destruct (c_success g), (c_error g) eqn:X1, (c_finally g) eqn:X2; cbn; rewrite ?X1, ?X2; reflexivity. }
  split.
  - exists (flat_map (map_event tx g) l). rewrite <- X, P, flat_map_app. reflexivity.
  - intro S. rewrite (Q S). exact X.
Qed.
End Proofs.
