(** Proofs about flows. *)
From Coq Require Import List Arith Bool Lia.
From Verif Require Import FlowModel FlowSpec.
Import ListNotations.

(** ** An acceptor of traces *)
Inductive phase := Ready (n : nat) | Running (n : nat) | Waiting (n k d : nat) (closed : bool) | Halted (n : nat).
Definition acc1 (p : phase * bool) (e : wevent) : option (phase * bool) :=
  match p, e with
  | (x, _), WEnd => Some (x, true)
  | (Ready n, b), WRun i => if i =? n then Some (Running n, b) else None
  | (Running n, false), WOpen r k => if r =? n then Some (Waiting n k 0 false, false) else None
  | (Running n, b), WErr r => if r =? n then Some (Halted n, b) else None
  | (Running n, true), WStop r => if r =? n then Some (Halted n, true) else None
  | (Waiting n k d false, b), WClosed r => if r =? n then Some (Waiting n k d true, b) else None
  | (Waiting n k d false, b), WDone r => if (r =? n) && (S d <? k) then Some (Waiting n k (S d) false, b) else None
  | (Waiting n k d true, b), WDone r =>
    if (r =? n) && (S d <=? k) then Some (if S d =? k then Ready (S n) else Waiting n k (S d) true, b) else None
  | _, _ => None
  end.
Fixpoint acc_from (p : phase * bool) (tr : list wevent) : option (phase * bool) :=
  match tr with [] => Some p | e :: tr' => match acc1 p e with Some p' => acc_from p' tr' | None => None end end.
Definition acc := acc_from (Ready 0, false).

Lemma acc_from_app : forall a b p, acc_from p (a ++ b) = match acc_from p a with Some q => acc_from q b | None => None end.
Proof. induction a as [|e a IH]; intros b p; [reflexivity|]. cbn. destruct (acc1 p e); [apply IH|reflexivity]. Qed.

Definition count (p : phase) : nat := match p with Ready n => n | Running n | Waiting n _ _ _ | Halted n => S n end.
Definition full (p : phase) : nat := match p with Ready n | Running n | Waiting n _ _ _ | Halted n => n end.
Definition index (e : wevent) : option nat := match e with WOpen r _ | WClosed r | WDone r | WErr r | WStop r => Some r | _ => None end.

Lemma runs_app : forall a b, runs (a ++ b) = runs a ++ runs b.
Proof. intros. apply flat_map_app. Qed.
Lemma dones_app : forall r a b, dones r (a ++ b) = dones r a + dones r b.
Proof. intros. unfold dones. rewrite filter_app, app_length. reflexivity. Qed.

Record facts (tr : list wevent) (p : phase) (e : bool) : Prop := {
  t_runs : runs tr = seq 0 (count p);
  t_index : forall ev r, In ev tr -> index ev = Some r -> r < count p;
  t_full : forall r, r < full p -> exists k, k > 0 /\ In (WOpen r k) tr /\ In (WClosed r) tr /\ dones r tr = k;
  t_open : match p with Running n => forall ev, In ev tr -> index ev <> Some n | _ => True end;
  t_wait : match p with
           | Waiting n k d c => In (WOpen n k) tr /\ dones n tr = d /\ (In (WClosed n) tr <-> c = true) /\ (forall k', In (WOpen n k') tr -> k' = k) /\ (d < k \/ (k = 0 /\ d = 0))
           | _ => True end;
  t_end : e = true <-> In WEnd tr;
  t_halt : match p with Halted n => In (WErr n) tr \/ In (WStop n) tr | _ => True end;
  t_stop : forall r, In (WStop r) tr -> In WEnd tr }.

Lemma dones_0 : forall n tr, (forall ev, In ev tr -> index ev <> Some n) -> dones n tr = 0.
Proof.
  intros n tr H. unfold dones. induction tr as [|e tr IH]; [reflexivity|]. cbn [filter]. destruct (is_done n e) eqn:D.
  - destruct e; try discriminate D. apply Nat.eqb_eq in D. subst. exfalso. apply (H (WDone n)); [left; reflexivity|reflexivity].
  - apply IH. intros ev Hi. apply H. right. exact Hi.
Qed.

(** Adding an event. *)
Lemma full_keep : forall tr r ev n, r < n -> (forall x, index ev = Some x -> n <= x) ->
  (exists k, k > 0 /\ In (WOpen r k) tr /\ In (WClosed r) tr /\ dones r tr = k) ->
  exists k, k > 0 /\ In (WOpen r k) (tr ++ [ev]) /\ In (WClosed r) (tr ++ [ev]) /\ dones r (tr ++ [ev]) = k.
Proof.
  intros tr r ev n Hr Hn (k & K1 & K2 & K3 & K4). exists k. split; [exact K1|]. split; [apply in_or_app; left; exact K2|]. split; [apply in_or_app; left; exact K3|].
  rewrite dones_app, K4. unfold dones. cbn [filter]. destruct (is_done r ev) eqn:D; [|cbn; lia].
  destruct ev; try discriminate D. apply Nat.eqb_eq in D. subst. specialize (Hn r eq_refl). lia.
Qed.

Lemma in_snoc : forall {A} (x y : A) l, In x (l ++ [y]) <-> In x l \/ x = y.
Proof. intros. rewrite in_app_iff. cbn. intuition. Qed.

Lemma facts_step : forall tr p e ev p' e', facts tr p e -> acc1 (p, e) ev = Some (p', e') -> facts (tr ++ [ev]) p' e'.
Proof.
  intros tr p e ev p' e' F H. destruct F as [F1 F2 F3 F4 F5 F6 F7 F8].
  assert (SEQ : forall n, seq 0 n ++ [n] = seq 0 (S n)) by (intro n; rewrite seq_S; reflexivity).
  assert (Hfull : forall m, m <= full p -> (forall x, index ev = Some x -> m <= x) ->
    forall r, r < m -> exists k, k > 0 /\ In (WOpen r k) (tr ++ [ev]) /\ In (WClosed r) (tr ++ [ev]) /\ dones r (tr ++ [ev]) = k).
  { intros m Hm Hx r Hr. apply (full_keep tr r ev m Hr Hx). apply F3. lia. }
  destruct ev as [i|r k|r|r|r|r|].
  7: { assert (p' = p /\ e' = true) as [-> ->] by (destruct p as [| |? ? ? []|], e; injection H as <- <-; auto). constructor.
    - rewrite runs_app, app_nil_r. exact F1.
    - intros x r Hx Hi. apply in_snoc in Hx as [Hx| ->]; [eapply F2; eassumption|discriminate].
    - apply (Hfull (full p)); [lia|discriminate].
    - destruct p; auto. intros x Hx. apply in_snoc in Hx as [Hx| ->]; [apply F4; exact Hx|discriminate].
    - destruct p as [| |n k d c|]; auto. destruct F5 as (A & B & C & D & G). split; [apply in_snoc; auto|]. split; [rewrite dones_app, B; cbn; lia|]. split; [|split; [|exact G]].
      + rewrite in_snoc. split; [intros [X|X]; [apply C, X|discriminate]|]. intro X. left. apply C, X.
      + intros k' X. apply in_snoc in X as [X|X]; [apply D, X|discriminate].
    - split; [intros _; apply in_snoc; auto|reflexivity].
    - destruct p; auto. rewrite !in_snoc. tauto.
    - intros r _. apply in_snoc. auto. }
  all: assert (E' : e' = e) by (destruct p as [n|n|n k' d []|n], e; cbn in H; try discriminate H;
         try (match type of H with (if ?c then _ else _) = _ => destruct c end); try discriminate H; injection H as _ <-; reflexivity); subst e'.
  all: assert (F6' : forall x, x <> WEnd -> e = true <-> In WEnd (tr ++ [x])) by (intros x Hx; rewrite in_snoc, F6; split; [auto|intros [?|?]; [assumption|congruence]]).
  - (* WRun *) destruct p as [n|n|n k' d []|n], e; cbn in H; try discriminate H; destruct (Nat.eqb_spec i n) as [->|]; try discriminate H; injection H as <-.
    all: constructor.
    all: try (rewrite runs_app, F1; exact (SEQ n)).
    all: try (intros x r Hx Hi; apply in_snoc in Hx as [Hx| ->]; [specialize (F2 x r Hx Hi); cbn in *; lia|discriminate]).
    all: try (apply (Hfull n); [cbn; lia|discriminate]).
    all: try exact I.
    all: try (apply F6'; discriminate).
    all: try (intros x Hx; apply in_snoc in Hx as [Hx| ->]; [intro Hi; specialize (F2 x n Hx Hi); cbn in F2; lia|discriminate]).
    all: try (intros r X; apply in_snoc in X as [X|X]; [apply in_snoc; left; eapply F8; exact X|discriminate X]).
  - (* WOpen *) destruct p as [n|n|n k' d []|n], e; cbn in H; try discriminate H. destruct (Nat.eqb_spec r n) as [->|]; try discriminate H. injection H as <-.
    constructor.
    + rewrite runs_app, F1, app_nil_r. reflexivity.
    + intros x r Hx Hi; apply in_snoc in Hx as [Hx| ->]; [specialize (F2 x r Hx Hi); cbn in *; lia|]. injection Hi as <-. cbn. lia.
    + apply (Hfull n); [cbn; lia|]. intros x X. injection X as <-. lia.
    + exact I.
    + split; [apply in_snoc; auto|]. split; [rewrite dones_app, (dones_0 n tr F4); reflexivity|]. split.
      * rewrite in_snoc. split; [|discriminate]. intros [X|X]; [|discriminate X]. exfalso. apply (F4 _ X). reflexivity.
      * split; [|lia]. intros k' X. apply in_snoc in X as [X|X]; [exfalso; apply (F4 _ X); reflexivity|]. congruence.
    + apply F6'. discriminate.
    + exact I.
    + intros r X; apply in_snoc in X as [X|X]; [apply in_snoc; left; eapply F8; exact X|discriminate X].
  - (* WClosed *) destruct p as [n|n|n k' d []|n]; cbn in H; try (destruct e; discriminate H). destruct (Nat.eqb_spec r n) as [->|]; try (destruct e; discriminate H).
    assert (p' = Waiting n k' d true) by (destruct e; injection H as <-; reflexivity). subst p'. clear H.
    destruct F5 as (A & B & C & D & G). constructor.
    + rewrite runs_app, F1, app_nil_r. reflexivity.
    + intros x r Hx Hi; apply in_snoc in Hx as [Hx| ->]; [specialize (F2 x r Hx Hi); cbn in *; lia|]. injection Hi as <-. cbn. lia.
    + apply (Hfull n); [cbn; lia|]. intros x X. injection X as <-. lia.
    + exact I.
    + split; [apply in_snoc; auto|]. split; [rewrite dones_app, B; cbn; lia|]. split; [|split; [|exact G]].
      * rewrite in_snoc. split; auto.
      * intros k2 X. apply in_snoc in X as [X|X]; [apply D, X|discriminate].
    + apply F6'. discriminate.
    + exact I.
    + intros r X; apply in_snoc in X as [X|X]; [apply in_snoc; left; eapply F8; exact X|discriminate X].
  - (* WDone *) destruct p as [n|n|n k' d c|n]; cbn [acc1] in H; try (destruct e; discriminate H). destruct F5 as (A & B & C & D & G).
    assert (Dn : dones n (tr ++ [WDone n]) = S d) by (rewrite dones_app, B; unfold dones; cbn [filter is_done]; rewrite Nat.eqb_refl; cbn; lia).
    assert (R1 : runs (tr ++ [WDone r]) = seq 0 (S n)) by (rewrite runs_app, F1, app_nil_r; reflexivity).
    assert (R2 : r = n -> forall x r0, In x (tr ++ [WDone r]) -> index x = Some r0 -> r0 < S n).
    { intros -> x r0 Hx Hi. apply in_snoc in Hx as [Hx| ->]; [exact (F2 x r0 Hx Hi)|]. injection Hi as <-. lia. }
    destruct c.
    + destruct (Nat.eqb_spec r n) as [->|]; [|destruct e; discriminate H]. cbn [andb] in H. destruct (Nat.leb_spec (S d) k'); [|destruct e; discriminate H].
      destruct (Nat.eqb_spec (S d) k') as [Ek|Nk].
      * assert (p' = Ready (S n)) by (destruct e; injection H as <-; reflexivity). subst p'. clear H. constructor.
        -- exact R1.
        -- exact (R2 eq_refl).
        -- cbn [full]. intros r Hr. destruct (Nat.eq_dec r n) as [->|].
           ++ exists k'. split; [lia|]. split; [apply in_snoc; auto|]. split; [apply in_snoc; left; apply C; reflexivity|]. lia.
           ++ apply (Hfull n); [cbn; lia| |lia]. intros x X. injection X as <-. lia.
        -- exact I.
        -- exact I.
        -- apply F6'. discriminate.
        -- exact I.
        -- intros r X; apply in_snoc in X as [X|X]; [apply in_snoc; left; eapply F8; exact X|discriminate X].
      * assert (p' = Waiting n k' (S d) true) by (destruct e; injection H as <-; reflexivity). subst p'. clear H. constructor.
        -- exact R1.
        -- exact (R2 eq_refl).
        -- apply (Hfull n); [cbn; lia|]. intros x X. injection X as <-. lia.
        -- exact I.
        -- split; [apply in_snoc; auto|]. split; [exact Dn|]. split; [|split; [|lia]].
           ++ rewrite in_snoc. split; [reflexivity|]. intros _. left. apply C. reflexivity.
           ++ intros k2 X. apply in_snoc in X as [X|X]; [apply D, X|discriminate].
        -- apply F6'. discriminate.
        -- exact I.
        -- intros r X; apply in_snoc in X as [X|X]; [apply in_snoc; left; eapply F8; exact X|discriminate X].
    + destruct (Nat.eqb_spec r n) as [->|]; [|destruct e; discriminate H]. cbn [andb] in H. destruct (Nat.ltb_spec (S d) k'); [|destruct e; discriminate H].
      assert (p' = Waiting n k' (S d) false) by (destruct e; injection H as <-; reflexivity). subst p'. clear H. constructor.
      * exact R1.
      * exact (R2 eq_refl).
      * apply (Hfull n); [cbn; lia|]. intros x X. injection X as <-. lia.
      * exact I.
      * split; [apply in_snoc; auto|]. split; [exact Dn|]. split; [|split; [|lia]].
        -- rewrite in_snoc. split; [|discriminate]. intros [X|X]; [apply C, X|discriminate].
        -- intros k2 X. apply in_snoc in X as [X|X]; [apply D, X|discriminate].
      * apply F6'. discriminate.
      * exact I.
      * intros r X; apply in_snoc in X as [X|X]; [apply in_snoc; left; eapply F8; exact X|discriminate X].
  - (* WErr *) destruct p as [n|n|n k' d []|n], e; cbn in H; try discriminate H; destruct (Nat.eqb_spec r n) as [->|]; try discriminate H; injection H as <-.
    all: constructor.
    all: try (rewrite runs_app, F1, app_nil_r; reflexivity).
    all: try (intros x r Hx Hi; apply in_snoc in Hx as [Hx| ->]; [specialize (F2 x r Hx Hi); cbn in *; lia|injection Hi as <-; cbn; lia]).
    all: try (apply (Hfull n); [cbn; lia|]; intros x X; injection X as <-; lia).
    all: try exact I.
    all: try (apply F6'; discriminate).
    all: try (left; apply in_snoc; auto).
    all: try (intros r X; apply in_snoc in X as [X|X]; [apply in_snoc; left; eapply F8; exact X|discriminate X]).
  - (* WStop *) destruct p as [n|n|n k' d []|n], e; cbn in H; try discriminate H; destruct (Nat.eqb_spec r n) as [->|]; try discriminate H; injection H as <-.
    all: constructor.
    all: try (rewrite runs_app, F1, app_nil_r; reflexivity).
    all: try (intros x r Hx Hi; apply in_snoc in Hx as [Hx| ->]; [specialize (F2 x r Hx Hi); cbn in *; lia|injection Hi as <-; cbn; lia]).
    all: try (apply (Hfull n); [cbn; lia|]; intros x X; injection X as <-; lia).
    all: try exact I.
    all: try (apply F6'; discriminate).
    all: try (right; apply in_snoc; auto).
    all: try (intros r X; apply in_snoc; left; apply F6; reflexivity).
Qed.

Lemma acc_facts : forall tr p e, acc tr = Some (p, e) -> facts tr p e.
Proof.
  intro tr. induction tr as [|ev tr IH] using rev_ind; intros p e H.
  - injection H as <- <-. constructor; cbn; try tauto; try lia; try reflexivity.
  - unfold acc in *. rewrite acc_from_app in H. destruct (acc_from (Ready 0, false) tr) as [[p0 e0]|]; [|discriminate]. cbn [acc_from] in H.
    destruct (acc1 (p0, e0) ev) as [[p1 e1]|] eqn:A; [|discriminate]. injection H as <- <-. eapply facts_step; [apply IH; reflexivity|exact A].
Qed.

(** ** The machine *)
Section Machine.
Context (N : nat).
Definition users (l : list witem) : Prop := Forall (fun x => x = WUser) l.

Definition minv (s : wst) (stack : list witem) (p : phase) (e : bool) : Prop :=
  w_ended s = e /\
  match p with
  | Ready n => w_pend s = [] /\ w_pos s = n /\ w_runs s = n /\ n <= N /\
      exists U, users U /\ (stack = WNext :: U \/ (stack = WCheck :: U /\ w_len s = S (w_completed s)) \/ (stack = U /\ n = N))
  | Running n => w_pend s = [] /\ w_pos s = n /\ w_runs s = S n /\ n < N /\ w_completed s = 0 /\
      exists U1 U2, users U1 /\ users U2 /\ stack = U1 ++ WStep n :: U2
  | Waiting n k d false => w_pos s = n /\ w_runs s = S n /\ n < N /\ w_len s = k /\ (d < k \/ (k = 0 /\ d = 0)) /\
      exists m j U1 (g : bool) (c : bool) U2, w_pend s = repeat n m /\ users U1 /\ users U2 /\
        stack = (if c then [WCheck] else []) ++ U1 ++ (if g then [WReg n] else []) ++ WLoop n j :: U2 /\
        d + m + j + (if g then 1 else 0) = k /\ w_completed s + (if c then 1 else 0) = d
  | Waiting n k d true => w_pos s = S n /\ w_runs s = S n /\ n < N /\ w_len s = k /\ (d < k \/ (k = 0 /\ d = 0)) /\
      exists m (c : bool) U, w_pend s = repeat n m /\ users U /\ stack = (if c then [WCheck] else []) ++ U /\
        d + m = k /\ w_completed s + (if c then 1 else 0) = d
  | Halted n => w_pend s = [] /\ n < N /\ users stack
  end.

Lemma users_app : forall a b, users (a ++ b) <-> users a /\ users b.
Proof. intros. unfold users. rewrite Forall_app. tauto. Qed.

Lemma unhurried_app : forall a b, unhurried (a ++ b) -> unhurried a.
Proof. intros a b H x r y k E. apply (H x r (y ++ b) k). rewrite E, <- app_assoc. reflexivity. Qed.

Lemma repeat_split : forall (q1 q2 : list nat) r n m, q1 ++ r :: q2 = repeat n m -> r = n /\ exists m', m = S m' /\ q1 ++ q2 = repeat n m'.
Proof.
  induction q1 as [|x q1 IH]; intros q2 r n [|m] H; try discriminate H; cbn in H.
  - injection H as -> ->. split; [reflexivity|]. exists m. auto.
  - injection H as -> H. destruct (IH _ _ _ _ H) as (-> & m' & -> & Q). split; [reflexivity|]. exists (S m'). cbn. rewrite Q. auto.
Qed.

Lemma user_tail : forall U stack, users U -> WUser :: stack = U -> users stack.
Proof. intros U stack H <-. inversion H; assumption. Qed.

Definition ok s stack tr : Prop := unhurried tr -> exists p e, acc tr = Some (p, e) /\ minv s stack p e.

Lemma acc_snoc : forall tr ev p e, acc tr = Some (p, e) -> acc (tr ++ [ev]) = acc1 (p, e) ev.
Proof. intros tr ev p e H. unfold acc in *. rewrite acc_from_app, H. cbn [acc_from]. destruct (acc1 (p, e) ev); reflexivity. Qed.

(** An awaitable of the current group calls back. *)
Lemma done_open : forall tr n k d e, unhurried (tr ++ [WDone n]) -> acc tr = Some (Waiting n k d false, e) ->
  acc (tr ++ [WDone n]) = Some (Waiting n k (S d) false, e) /\ S d < k.
Proof.
  intros tr n k d e U A. destruct (t_wait _ _ _ (acc_facts _ _ _ A)) as (B & C & D & F & G).
  assert (L : S d < k).
  { assert (X := U tr n [] k eq_refl B). rewrite C in X. assert (~ In (WClosed n) tr) by (intro Y; apply D in Y; discriminate). specialize (X H). lia. }
  split; [|exact L]. rewrite (acc_snoc _ _ _ _ A). cbn [acc1]. rewrite Nat.eqb_refl. apply Nat.ltb_lt in L. rewrite L. destruct e; reflexivity.
Qed.
Lemma done_closed : forall tr n k d e, acc tr = Some (Waiting n k d true, e) -> S d <= k ->
  acc (tr ++ [WDone n]) = Some (if S d =? k then Ready (S n) else Waiting n k (S d) true, e).
Proof.
  intros tr n k d e A L. rewrite (acc_snoc _ _ _ _ A). cbn [acc1]. rewrite Nat.eqb_refl. apply Nat.leb_le in L. rewrite L. destruct e; reflexivity.
Qed.

Lemma cons_users : forall U1 x stack rest, users U1 -> x :: stack = U1 ++ rest -> x <> WUser -> U1 = [] /\ rest = x :: stack.
Proof. intros [|u U1] x stack rest H E Nx; [auto|]. cbn in E. injection E as -> E. inversion H; congruence. Qed.
Lemma cons_user : forall U1 stack y rest, users U1 -> WUser :: stack = U1 ++ y :: rest -> y <> WUser -> exists U, U1 = WUser :: U /\ users U /\ stack = U ++ y :: rest.
Proof. intros [|u U1] stack y rest H E Ny; cbn in E; [congruence|]. injection E as <- E. exists U1. inversion H; auto. Qed.

Lemma users_not : forall U x stack, users U -> x :: stack = U -> x = WUser.
Proof. intros U x stack H <-. inversion H. assumption. Qed.

Lemma wreach_ok : forall s stack tr, wreach N s stack tr -> ok s stack tr.
Proof.
  intros s stack tr H. induction H as [|p c l e q n stack tr H IH|p c l e q1 r q2 n stack tr H IH|s stack tr H IH Ns|s it stack tr s' its evs H IH S]; intro Un.
  - exists (Ready 0), false. split; [reflexivity|]. split; [reflexivity|]. cbn. repeat split; try lia. exists [WUser]. split; [repeat constructor|]. auto.
  - destruct (IH (unhurried_app _ _ Un)) as (p0 & e0 & A & M). exists p0, true. split; [rewrite (acc_snoc _ _ _ _ A); destruct p0 as [| |? ? ? []|], e0; reflexivity|].
    destruct M as [_ M]. split; [reflexivity|]. exact M.
  - destruct (IH (unhurried_app _ _ Un)) as (p0 & e0 & A & M). destruct M as [Me M]. cbn in Me.
    destruct p0 as [x|x|x k d cl|x]; cbn in M; try (destruct M as (M & _); destruct q1; discriminate M).
    destruct cl.
    + destruct M as (M1 & M2 & M3 & M4 & M5 & m & cc & U & M6 & M7 & M8 & M9 & M10). subst p n l.
      apply repeat_split in M6 as (-> & m' & -> & Q). destruct cc; [destruct U; discriminate M8|]. cbn [app] in M8.
      eexists _, e0. split; [apply (done_closed tr x k d e0 A); lia|]. split; [exact Me|]. destruct (Nat.eqb_spec (S d) k) as [Ek|Nk].
      * cbn. assert (m' = 0) by lia. subst m'. repeat split; try lia; try exact Q. exists (WUser :: stack). split; [rewrite M8; exact M7|]. right. left. split; [reflexivity|]. lia.
      * cbn. repeat split; try lia. exists m', true, (WUser :: stack). repeat split; try assumption; try lia. rewrite M8. exact M7.
    + destruct M as (M1 & M2 & M3 & M4 & M5 & m & j & U1 & g & cc & U2 & M6 & M7 & M8 & M9 & M10 & M11). subst p n l.
      apply repeat_split in M6 as (-> & m' & -> & Q). destruct cc; [discriminate M9|]. cbn [app] in M9.
      destruct (done_open tr x k d e0 Un A) as [A' L]. eexists _, e0. split; [exact A'|]. split; [exact Me|]. cbn. repeat split; try lia.
      exists m', j, U1, g, true, U2. repeat split; try assumption; try lia. cbn [app]. f_equal. exact M9.
  - destruct (IH Un) as (p0 & e0 & A & M). exists p0, e0. split; [exact A|]. destruct M as [Me M]. split; [exact Me|].
    destruct p0 as [x|x|x k d cl|x]; cbn in M.
    + destruct M as (M1 & M2 & M3 & M4 & U & M5 & [M6|[[M6 M7]|[M6 M7]]]); [discriminate M6|discriminate M6|]. repeat split; auto. exists stack. split; [eapply user_tail; [exact M5|exact M6]|]. auto.
    + destruct M as (M1 & M2 & M3 & M4 & M0 & U1 & U2 & M5 & M6 & M7). apply cons_user in M7 as (U & -> & X & ->); [|exact M5|discriminate].
      repeat split; auto. exists U, U2. auto.
    + destruct cl.
      * destruct M as (M1 & M2 & M3 & M4 & M5 & m & cc & U & M6 & M7 & M8 & M9 & M10). destruct cc; [discriminate M8|]. cbn [app] in M8.
        repeat split; auto. exists m, false, stack. repeat split; auto. eapply user_tail; [exact M7|exact M8].
      * destruct M as (M1 & M2 & M3 & M4 & M5 & m & j & U1 & g & cc & U2 & M6 & M7 & M8 & M9 & M10 & M11). destruct cc; [discriminate M9|]. cbn [app] in M9.
        repeat split; auto. destruct g; cbn [app] in M9; apply cons_user in M9 as (U & -> & X & ->); try exact M7; try discriminate.
        -- exists m, j, U, true, false, U2. repeat split; auto.
        -- exists m, j, U, false, false, U2. repeat split; auto.
    + destruct M as (M1 & M2 & M3). repeat split; auto. eapply user_tail; [exact M3|reflexivity].
  - destruct (IH (unhurried_app _ _ Un)) as (p0 & e0 & A & M). destruct M as [Me M].
    inversion S; subst; cbn [w_ended w_pend w_pos w_runs w_completed w_len] in *.
    + (* next at the end *) rewrite app_nil_r. exists p0, e. split; [exact A|]. split; [reflexivity|]. destruct p0 as [x|x|x k d []|x]; cbn in M |- *.
      * destruct M as (M1 & M2 & M3 & M4 & U & M5 & [M6|[[M6 M7]|[M6 M7]]]); [|discriminate M6|discriminate (users_not _ _ _ M5 M6)].
        injection M6 as ->. repeat split; auto. exists U. split; [exact M5|]. right. right. split; [reflexivity|lia].
      * destruct M as (M1 & M2 & M3 & M4 & M0 & U1 & U2 & M5 & M6 & M7). apply cons_users in M7 as [_ M7]; [discriminate M7|exact M5|discriminate].
      * destruct M as (M1 & M2 & M3 & M4 & M5 & m & cc & U & M6 & M7 & M8 & M9 & M10). destruct cc; [discriminate M8|]. discriminate (users_not _ _ _ M7 M8).
      * destruct M as (M1 & M2 & M3 & M4 & M5 & m & j & U1 & g & cc & U2 & M6 & M7 & M8 & M9 & M10 & M11). destruct cc; [discriminate M9|]. cbn [app] in M9.
        apply cons_users in M9 as [_ M9]; [destruct g; discriminate M9|exact M7|discriminate].
      * destruct M as (M1 & M2 & M3). discriminate (users_not _ _ _ M3 eq_refl).
    + (* next *) destruct p0 as [x|x|x k d []|x]; cbn in M.
      * destruct M as (M1 & M2 & M3 & M4 & U & M5 & [M6|[[M6 M7]|[M6 M7]]]); [|discriminate M6|discriminate (users_not _ _ _ M5 M6)].
        injection M6 as ->. subst p n q. exists (Running x), (w_ended (mkW x 0 l e [] x)). split; [rewrite (acc_snoc _ _ _ _ A); cbn; rewrite Nat.eqb_refl; destruct e; reflexivity|].
        split; [reflexivity|]. cbn. repeat split; auto. exists [WUser], U. repeat split; auto. repeat constructor.
      * destruct M as (M1 & M2 & M3 & M4 & M0 & U1 & U2 & M5 & M6 & M7). apply cons_users in M7 as [_ M7]; [discriminate M7|exact M5|discriminate].
      * destruct M as (M1 & M2 & M3 & M4 & M5 & m & cc & U & M6 & M7 & M8 & M9 & M10). destruct cc; [discriminate M8|]. discriminate (users_not _ _ _ M7 M8).
      * destruct M as (M1 & M2 & M3 & M4 & M5 & m & j & U1 & g & cc & U2 & M6 & M7 & M8 & M9 & M10 & M11). destruct cc; [discriminate M9|]. cbn [app] in M9.
        apply cons_users in M9 as [_ M9]; [destruct g; discriminate M9|exact M7|discriminate].
      * destruct M as (M1 & M2 & M3). discriminate (users_not _ _ _ M3 eq_refl).
    + (* err *) assert (X : exists n U2, p0 = Running n /\ n < N /\ r = n /\ users U2 /\ stack = U2 /\ w_pend s' = []).
      { destruct p0 as [x|x|x k d []|x]; cbn in M.
        - destruct M as (M1 & M2 & M3 & M4 & U & M5 & [M6|[[M6 M7]|[M6 M7]]]); [discriminate M6|discriminate M6|discriminate (users_not _ _ _ M5 M6)].
        - destruct M as (M1 & M2 & M3 & M4 & M0 & U1 & U2 & M5 & M6 & M7). apply cons_users in M7 as [_ M7]; [|exact M5|discriminate]. injection M7 as -> ->. exists r, stack. repeat split; auto.
        - destruct M as (M1 & M2 & M3 & M4 & M5 & m & cc & U & M6 & M7 & M8 & M9 & M10). destruct cc; [discriminate M8|]. discriminate (users_not _ _ _ M7 M8).
        - destruct M as (M1 & M2 & M3 & M4 & M5 & m & j & U1 & g & cc & U2 & M6 & M7 & M8 & M9 & M10 & M11). destruct cc; [discriminate M9|]. cbn [app] in M9.
          apply cons_users in M9 as [_ M9]; [destruct g; discriminate M9|exact M7|discriminate].
        - destruct M as (M1 & M2 & M3). discriminate (users_not _ _ _ M3 eq_refl). }
      destruct X as (n & U2 & -> & Hn & -> & HU & -> & Hq). exists (Halted n), (w_ended s'). split; [rewrite (acc_snoc _ _ _ _ A); cbn; rewrite Nat.eqb_refl; destruct (w_ended s'); reflexivity|].
      split; [reflexivity|]. cbn. split; [exact Hq|]. split; [exact Hn|]. constructor; [reflexivity|exact HU].
    + (* stop *) assert (X : exists n U2, p0 = Running n /\ n < N /\ r = n /\ users U2 /\ stack = U2 /\ q = []).
      { destruct p0 as [x|x|x k d []|x]; cbn in M.
        - destruct M as (M1 & M2 & M3 & M4 & U & M5 & [M6|[[M6 M7]|[M6 M7]]]); [discriminate M6|discriminate M6|discriminate (users_not _ _ _ M5 M6)].
        - destruct M as (M1 & M2 & M3 & M4 & M0 & U1 & U2 & M5 & M6 & M7). apply cons_users in M7 as [_ M7]; [|exact M5|discriminate]. injection M7 as -> ->. exists r, stack. repeat split; auto.
        - destruct M as (M1 & M2 & M3 & M4 & M5 & m & cc & U & M6 & M7 & M8 & M9 & M10). destruct cc; [discriminate M8|]. discriminate (users_not _ _ _ M7 M8).
        - destruct M as (M1 & M2 & M3 & M4 & M5 & m & j & U1 & g & cc & U2 & M6 & M7 & M8 & M9 & M10 & M11). destruct cc; [discriminate M9|]. cbn [app] in M9.
          apply cons_users in M9 as [_ M9]; [destruct g; discriminate M9|exact M7|discriminate].
        - destruct M as (M1 & M2 & M3). discriminate (users_not _ _ _ M3 eq_refl). }
      destruct X as (x & U2 & -> & Hn & -> & HU & -> & Hq). exists (Halted x), true. split; [rewrite (acc_snoc _ _ _ _ A); cbn; rewrite Nat.eqb_refl; reflexivity|].
      split; [reflexivity|]. cbn. auto.
    + (* open *) destruct p0 as [x|x|x k0 d []|x]; cbn in M.
      * destruct M as (M1 & M2 & M3 & M4 & U & M5 & [M6|[[M6 M7]|[M6 M7]]]); [discriminate M6|discriminate M6|discriminate (users_not _ _ _ M5 M6)].
      * destruct M as (M1 & M2 & M3 & M4 & M0 & U1 & U2 & M5 & M6 & M7). apply cons_users in M7 as [_ M7]; [|exact M5|discriminate]. injection M7 as -> ->. subst.
        exists (Waiting r k 0 false), false. split; [rewrite (acc_snoc _ _ _ _ A); cbn; rewrite Nat.eqb_refl; reflexivity|]. split; [reflexivity|]. cbn.
        repeat split; auto; try lia. exists 0, k, [], false, false, stack. repeat split; auto; try lia. constructor.
      * destruct M as (M1 & M2 & M3 & M4 & M5 & m & cc & U & M6 & M7 & M8 & M9 & M10). destruct cc; [discriminate M8|]. discriminate (users_not _ _ _ M7 M8).
      * destruct M as (M1 & M2 & M3 & M4 & M5 & m & j & U1 & g & cc & U2 & M6 & M7 & M8 & M9 & M10 & M11). destruct cc; [discriminate M9|]. cbn [app] in M9.
        apply cons_users in M9 as [_ M9]; [destruct g; discriminate M9|exact M7|discriminate].
      * destruct M as (M1 & M2 & M3). discriminate (users_not _ _ _ M3 eq_refl).
    + (* loop *) rewrite app_nil_r. exists p0, (w_ended s'). split; [exact A|]. split; [reflexivity|]. destruct p0 as [x|x|x k0 d []|x]; cbn in M |- *.
      * destruct M as (M1 & M2 & M3 & M4 & U & M5 & [M6|[[M6 M7]|[M6 M7]]]); [discriminate M6|discriminate M6|discriminate (users_not _ _ _ M5 M6)].
      * destruct M as (M1 & M2 & M3 & M4 & M0 & U1 & U2 & M5 & M6 & M7). apply cons_users in M7 as [_ M7]; [discriminate M7|exact M5|discriminate].
      * destruct M as (M1 & M2 & M3 & M4 & M5 & m & cc & U & M6 & M7 & M8 & M9 & M10). destruct cc; [discriminate M8|]. discriminate (users_not _ _ _ M7 M8).
      * destruct M as (M1 & M2 & M3 & M4 & M5 & m & j0 & U1 & g & cc & U2 & M6 & M7 & M8 & M9 & M10 & M11). destruct cc; [discriminate M9|]. cbn [app] in M9.
        apply cons_users in M9 as [-> M9]; [|exact M7|discriminate]. destruct g; [discriminate M9|]. injection M9 as -> -> ->.
        repeat split; auto. exists m, j, [WUser], true, false, stack. repeat split; auto; try lia. repeat constructor.
      * destruct M as (M1 & M2 & M3). discriminate (users_not _ _ _ M3 eq_refl).
    + (* closed *) destruct p0 as [x|x|x k0 d []|x]; cbn in M.
      * destruct M as (M1 & M2 & M3 & M4 & U & M5 & [M6|[[M6 M7]|[M6 M7]]]); [discriminate M6|discriminate M6|discriminate (users_not _ _ _ M5 M6)].
      * destruct M as (M1 & M2 & M3 & M4 & M0 & U1 & U2 & M5 & M6 & M7). apply cons_users in M7 as [_ M7]; [discriminate M7|exact M5|discriminate].
      * destruct M as (M1 & M2 & M3 & M4 & M5 & m & cc & U & M6 & M7 & M8 & M9 & M10). destruct cc; [discriminate M8|]. discriminate (users_not _ _ _ M7 M8).
      * destruct M as (M1 & M2 & M3 & M4 & M5 & m & j0 & U1 & g & cc & U2 & M6 & M7 & M8 & M9 & M10 & M11). destruct cc; [discriminate M9|]. cbn [app] in M9.
        apply cons_users in M9 as [-> M9]; [|exact M7|discriminate]. destruct g; [discriminate M9|]. injection M9 as -> -> ->. subst p n l k0.
        exists (Waiting r (d + m + 0 + 0) d true), e. split; [rewrite (acc_snoc _ _ _ _ A); cbn [acc1]; rewrite Nat.eqb_refl; destruct e; reflexivity|]. split; [reflexivity|].
        cbn. repeat split; auto. exists m, false, stack. repeat split; auto; lia.
      * destruct M as (M1 & M2 & M3). discriminate (users_not _ _ _ M3 eq_refl).
    + (* already complete *) destruct p0 as [x|x|x k0 d []|x]; cbn in M.
      * destruct M as (M1 & M2 & M3 & M4 & U & M5 & [M6|[[M6 M7]|[M6 M7]]]); [discriminate M6|discriminate M6|discriminate (users_not _ _ _ M5 M6)].
      * destruct M as (M1 & M2 & M3 & M4 & M0 & U1 & U2 & M5 & M6 & M7). apply cons_users in M7 as [_ M7]; [discriminate M7|exact M5|discriminate].
      * destruct M as (M1 & M2 & M3 & M4 & M5 & m & cc & U & M6 & M7 & M8 & M9 & M10). destruct cc; [discriminate M8|]. discriminate (users_not _ _ _ M7 M8).
      * destruct M as (M1 & M2 & M3 & M4 & M5 & m & j0 & U1 & g & cc & U2 & M6 & M7 & M8 & M9 & M10 & M11). destruct cc; [discriminate M9|]. cbn [app] in M9.
        apply cons_users in M9 as [-> M9]; [|exact M7|discriminate]. destruct g; [|discriminate M9]. injection M9 as <- <-.
        destruct (done_open tr x k0 d _ Un A) as [A' L]. eexists _, _. split; [exact A'|]. split; [reflexivity|]. cbn. repeat split; auto.
        exists m, j0, [], false, true, U2. repeat split; auto; try lia.
      * destruct M as (M1 & M2 & M3). discriminate (users_not _ _ _ M3 eq_refl).
    + (* to be called back *) rewrite app_nil_r. exists p0, e. split; [exact A|]. split; [reflexivity|]. destruct p0 as [x|x|x k0 d []|x]; cbn in M |- *.
      * destruct M as (M1 & M2 & M3 & M4 & U & M5 & [M6|[[M6 M7]|[M6 M7]]]); [discriminate M6|discriminate M6|discriminate (users_not _ _ _ M5 M6)].
      * destruct M as (M1 & M2 & M3 & M4 & M0 & U1 & U2 & M5 & M6 & M7). apply cons_users in M7 as [_ M7]; [discriminate M7|exact M5|discriminate].
      * destruct M as (M1 & M2 & M3 & M4 & M5 & m & cc & U & M6 & M7 & M8 & M9 & M10). destruct cc; [discriminate M8|]. discriminate (users_not _ _ _ M7 M8).
      * destruct M as (M1 & M2 & M3 & M4 & M5 & m & j0 & U1 & g & cc & U2 & M6 & M7 & M8 & M9 & M10 & M11). destruct cc; [discriminate M9|]. cbn [app] in M9.
        apply cons_users in M9 as [-> M9]; [|exact M7|discriminate]. destruct g; [|discriminate M9]. injection M9 as <- <-.
        repeat split; auto. exists (Datatypes.S m), j0, [], false, false, U2. repeat split; auto; try lia. rewrite M6. reflexivity.
      * destruct M as (M1 & M2 & M3). discriminate (users_not _ _ _ M3 eq_refl).
    + (* check *) rewrite app_nil_r. exists p0, e. split; [exact A|]. split; [reflexivity|]. destruct p0 as [x|x|x k0 d []|x]; cbn in M |- *.
      * destruct M as (M1 & M2 & M3 & M4 & U & M5 & [M6|[[M6 M7]|[M6 M7]]]); [discriminate M6| |discriminate (users_not _ _ _ M5 M6)].
        injection M6 as ->. repeat split; auto. subst l. exists U. split; [exact M5|]. left. rewrite Nat.leb_refl. reflexivity.
      * destruct M as (M1 & M2 & M3 & M4 & M0 & U1 & U2 & M5 & M6 & M7). apply cons_users in M7 as [_ M7]; [discriminate M7|exact M5|discriminate].
      * destruct M as (M1 & M2 & M3 & M4 & M5 & m & cc & U & M6 & M7 & M8 & M9 & M10). destruct cc; [|discriminate (users_not _ _ _ M7 M8)]. injection M8 as ->.
        repeat split; auto. exists m, false, U. repeat split; auto; try lia. destruct (Nat.leb_spec l (Datatypes.S c)); [lia|reflexivity].
      * destruct M as (M1 & M2 & M3 & M4 & M5 & m & j0 & U1 & g & cc & U2 & M6 & M7 & M8 & M9 & M10 & M11). destruct cc.
        -- injection M9 as ->. repeat split; auto. exists m, j0, U1, g, false, U2. repeat split; auto; try lia. destruct (Nat.leb_spec l (Datatypes.S c)); [lia|reflexivity].
        -- cbn [app] in M9. apply cons_users in M9 as [_ M9]; [destruct g; discriminate M9|exact M7|discriminate].
      * destruct M as (M1 & M2 & M3). discriminate (users_not _ _ _ M3 eq_refl).
Qed.

(** ** The claims *)
Lemma accepted : forall s stack tr, wreach N s stack tr -> unhurried tr -> exists p e, acc tr = Some (p, e) /\ minv s stack p e.
Proof. intros s stack tr R U. exact (wreach_ok s stack tr R U). Qed.

Lemma count_le : forall s stack p e, minv s stack p e -> count p <= N.
Proof. intros s stack p e [_ M]. destruct p as [n|n|n k d []|n]; cbn in *; destruct M as (M1 & M2 & M3); try (destruct M3 as [M3 M4]); try (destruct M4 as [M4 _]); lia. Qed.

Theorem order_proof : forall s stack tr, wreach N s stack tr -> unhurried tr -> exists n, n <= N /\ runs tr = seq 0 n.
Proof.
  intros s stack tr R U. destruct (accepted _ _ _ R U) as (p & e & A & M). exists (count p). split; [eapply count_le; exact M|]. apply (t_runs _ _ _ (acc_facts _ _ _ A)).
Qed.

Lemma acc_prefix : forall a b x, acc (a ++ b) = Some x -> exists y, acc a = Some y /\ acc_from y b = Some x.
Proof. intros a b x H. unfold acc in *. rewrite acc_from_app in H. destruct (acc_from (Ready 0, false) a) as [y|]; [eauto|discriminate]. Qed.

Theorem waited_proof : forall s stack tr, wreach N s stack tr -> unhurried tr -> waited tr.
Proof.
  intros s stack tr R U a r b Et. destruct (accepted _ _ _ R U) as (p & e & A & M). rewrite Et in A.
  destruct (acc_prefix _ _ _ A) as ([q f] & Aa & Ab). cbn [acc_from] in Ab. destruct q as [n|n|n k d []|n], f; cbn [acc1] in Ab; try discriminate Ab;
  destruct (Nat.eqb_spec (Datatypes.S r) n) as [<-|]; try discriminate Ab; apply (t_full _ _ _ (acc_facts _ _ _ Aa)); cbn; lia.
Qed.

Lemma halted_stays : forall b n f x, acc_from (Halted n, f) b = Some x -> runs b = [].
Proof.
  induction b as [|ev b IH]; intros n f x H; [reflexivity|]. cbn [acc_from] in H. destruct ev, f; cbn [acc1] in H; try discriminate H; exact (IH _ _ _ H).
Qed.
Lemma ended_runs : forall b p x, acc_from (p, true) b = Some x -> length (runs b) <= match p with Ready _ | Waiting _ _ _ _ => 1 | _ => 0 end.
Proof.
  induction b as [|ev b IH]; intros p x H; [cbn; destruct p; lia|]. cbn [acc_from] in H. destruct (acc1 (p, true) ev) as [[q f]|] eqn:E1; [|discriminate].
  destruct p as [n|n|n k d c|n].
  - destruct ev; try discriminate E1; cbn [acc1] in E1.
    + destruct (i =? n); [|discriminate E1]. injection E1 as <- <-. specialize (IH _ _ H). change (runs (WRun i :: b)) with (i :: runs b). cbn [length] in *. lia.
    + injection E1 as <- <-. exact (IH _ _ H).
  - destruct ev; try discriminate E1; cbn [acc1] in E1; try (destruct (r =? n); [|discriminate E1]); injection E1 as <- <-; exact (IH _ _ H).
  - destruct c, ev; try discriminate E1; cbn [acc1] in E1.
    + destruct ((r =? n) && (Datatypes.S d <=? k)); [|discriminate E1]. injection E1 as <- <-. specialize (IH _ _ H). change (runs (WDone r :: b)) with (runs b). destruct (match k with 0 => false | Datatypes.S m' => d =? m' end); exact IH.
    + injection E1 as <- <-. exact (IH _ _ H).
    + destruct (r =? n); [|discriminate E1]. injection E1 as <- <-. exact (IH _ _ H).
    + destruct ((r =? n) && (Datatypes.S d <? k)); [|discriminate E1]. injection E1 as <- <-. exact (IH _ _ H).
    + injection E1 as <- <-. exact (IH _ _ H).
  - destruct ev; try discriminate E1. injection E1 as <- <-. exact (IH _ _ H).
Qed.

Theorem stops_proof : forall s stack tr, wreach N s stack tr -> unhurried tr -> stops tr.
Proof.
  intros s stack tr R U. destruct (accepted _ _ _ R U) as (p & e & A & M). split; [|split].
  - intros a r b Et. rewrite Et in A. destruct (acc_prefix _ _ _ A) as ([q f] & Aa & Ab). cbn [acc_from] in Ab.
    destruct q as [n|n|n k d []|n], f; cbn [acc1] in Ab; try discriminate Ab; destruct (r =? n); try discriminate Ab; apply (halted_stays _ _ _ _ Ab).
  - intros a r b Et. rewrite Et in A. destruct (acc_prefix _ _ _ A) as ([q f] & Aa & Ab). cbn [acc_from] in Ab.
    destruct q as [n|n|n k d []|n], f; cbn [acc1] in Ab; try discriminate Ab; destruct (r =? n); try discriminate Ab; apply (halted_stays _ _ _ _ Ab).
  - intros a b Et. rewrite Et in A. destruct (acc_prefix _ _ _ A) as ([q f] & Aa & Ab). cbn [acc_from] in Ab.
    assert (X : acc_from (q, true) b = Some (p, e)) by (destruct q as [| |? ? ? []|], f; exact Ab).
    apply ended_runs in X. destruct q; lia.
Qed.

Theorem progress_proof : forall s tr, wreach N s [WUser] tr -> unhurried tr -> fulfilled tr -> runs tr = seq 0 N.
Proof.
  intros s tr R U (F1 & F2 & F3). destruct (accepted _ _ _ R U) as (p & e & A & [Me M]). assert (T := acc_facts _ _ _ A). rewrite (t_runs _ _ _ T).
  destruct p as [n|n|n k d c|n].
  - cbn in M. destruct M as (M1 & M2 & M3 & M4 & V & M5 & [M6|[[M6 M7]|[M6 M7]]]); [discriminate M6|discriminate M6|]. cbn [count]. rewrite M7. reflexivity.
  - cbn in M. destruct M as (M1 & M2 & M3 & M4 & M0 & U1 & U2 & M5 & M6 & M7). destruct U1 as [|x [|y U1]]; discriminate M7.
  - destruct (t_wait _ _ _ T) as (B1 & B2 & _ & _ & B3). destruct (F3 _ _ B1) as [B4 B5]. lia.
  - exfalso. destruct (t_halt _ _ _ T) as [X|X]; [apply (F1 _ X)|]. apply F2. eapply (t_stop _ _ _ T). exact X.
Qed.

Lemma stalled : forall b n d c f x, acc_from (Waiting n 0 d c, f) b = Some x -> runs b = [].
Proof.
  induction b as [|ev b IH]; intros n d c f x H; [reflexivity|]. cbn [acc_from] in H.
  destruct ev, c, f; cbn [acc1] in H; try discriminate H; try exact (IH _ _ _ _ _ H);
  try (rewrite andb_false_r in H; discriminate H); destruct (r =? n); try discriminate H; exact (IH _ _ _ _ _ H).
Qed.
(** A step that returns no awaitables, as flow.go:44-60 do, is the last. *)
Theorem empty_proof : forall s stack a r b, wreach N s stack (a ++ WOpen r 0 :: b) -> unhurried (a ++ WOpen r 0 :: b) -> runs b = [].
Proof.
  intros s stack a r b R U. destruct (accepted _ _ _ R U) as (p & e & A & M).
  destruct (acc_prefix _ _ _ A) as ([q f] & Aa & Ab). cbn [acc_from] in Ab.
  destruct q as [n|n|n k d []|n], f; cbn [acc1] in Ab; try discriminate Ab. destruct (r =? n); [|discriminate Ab]. exact (stalled _ _ _ _ _ _ Ab).
Qed.

(** flow.go:114 does not panic. *)
Theorem no_panic_proof : forall s stack tr r, wreach N s (WLoop r 0 :: stack) tr -> unhurried tr -> w_pos s < N.
Proof.
  intros s stack tr r R U. destruct (accepted _ _ _ R U) as (p & e & A & [Me M]).
  destruct p as [x|x|x k d []|x]; cbn in M.
  - destruct M as (M1 & M2 & M3 & M4 & V & M5 & [M6|[[M6 M7]|[M6 M7]]]); [discriminate M6|discriminate M6|discriminate (users_not _ _ _ M5 M6)].
  - destruct M as (M1 & M2 & M3 & M4 & M0 & U1 & U2 & M5 & M6 & M7). lia.
  - destruct M as (M1 & M2 & M3 & M4 & M5 & m & cc & V & M6 & M7 & M8 & M9 & M10). destruct cc; [discriminate M8|]. discriminate (users_not _ _ _ M7 M8).
  - lia.
  - destruct M as (M1 & M2 & M3). discriminate (users_not _ _ _ M3 eq_refl).
Qed.
End Machine.

(** ** What happens otherwise *)
(** A group that is complete at once: the step is run again, and again. *)
Theorem rerun_proof : forall N n, N > 0 -> exists s stack tr, wreach N s stack tr /\ runs tr = repeat 0 (S n).
Proof.
  intros N n HN.
  assert (X : exists l q stack tr, wreach N (mkW 0 0 l false q (S n)) (WUser :: WStep n :: stack) tr /\ runs tr = repeat 0 (S n)).
  { induction n as [|n (l & q & stack & tr & R & E)].
    - exists 0, [], [WUser], [WRun 0]. split; [|auto].
      apply (w_item N (mkW 0 0 0 false [] 0) WNext [WUser] [] _ [WUser; WStep 0] [WRun 0]); [apply w_init|]. apply w_next. exact HN.
    - exists 1, q, (WLoop n 0 :: stack), (((((tr ++ [WOpen n 1]) ++ []) ++ [WDone n]) ++ []) ++ [WRun 0]). split.
      2: { rewrite !runs_app, E. cbn [runs flat_map app]. rewrite !app_nil_r. change [0] with (repeat 0 1). rewrite <- repeat_app. f_equal. lia. }
      eapply (w_item N (mkW 0 1 1 false q (S n)) WNext (WLoop n 0 :: stack) _ _ [WUser; WStep (S n)] [WRun 0]); [|apply w_next; exact HN].
      eapply (w_item N (mkW 0 0 1 false q (S n)) WCheck (WLoop n 0 :: stack) _ _ [WNext] []).
      2: { exact (w_check N 0 0 1 false q (S n)). }
      eapply (w_item N _ (WReg n) (WLoop n 0 :: stack) _ _ [WCheck] [WDone n]); [|apply w_reg_done].
      apply (w_return N _ (WReg n :: WLoop n 0 :: stack)); [|discriminate].
      eapply (w_item N _ (WLoop n 1) stack _ _ [WUser; WReg n; WLoop n 0] []); [|apply w_loop].
      eapply (w_item N (mkW 0 0 l false q (S n)) (WStep n) stack _ _ [WLoop n 1] [WOpen n 1]); [|apply w_step].
      apply (w_return N _ (WStep n :: stack)); [exact R|discriminate]. }
  destruct X as (l & q & stack & tr & R & E). eauto 10.
Qed.

(** *** Executions by schedule *)
Inductive cmd := CStep (k : nat) | CErr | CNow | CLater | CGo | CEnd | CDone (r : nat) | CRet.
Fixpoint remove1 (r : nat) (q : list nat) : option (list nat) :=
  match q with [] => None | x :: q' => if x =? r then Some q' else option_map (cons x) (remove1 r q') end.
Definition wexec1 (N : nat) (st : wst * list witem * list wevent) (c : cmd) : option (wst * list witem * list wevent) :=
  let '(s, stack, tr) := st in
  let 'mkW p cc l e q n := s in
  match c, stack with
  | CStep k, WStep r :: st' => if e then None else Some (mkW p cc k false q n, WLoop r k :: st', tr ++ [WOpen r k])
  | CErr, WStep r :: st' => Some (s, WUser :: st', tr ++ [WErr r])
  | CNow, WReg r :: st' => Some (s, WCheck :: st', tr ++ [WDone r])
  | CLater, WReg r :: st' => Some (mkW p cc l e (r :: q) n, st', tr ++ [])
  | CGo, WNext :: st' => if N <=? p then Some (s, st', tr ++ []) else Some (mkW p 0 l e q (S n), WUser :: WStep n :: st', tr ++ [WRun p])
  | CGo, WLoop r 0 :: st' => if p <? N then Some (mkW (S p) cc l e q n, st', tr ++ [WClosed r]) else None
  | CGo, WLoop r (S j) :: st' => Some (s, WUser :: WReg r :: WLoop r j :: st', tr ++ [])
  | CGo, WCheck :: st' => Some (mkW p (S cc) l e q n, (if l <=? S cc then [WNext] else []) ++ st', tr ++ [])
  | CGo, WStep r :: st' => if e then Some (s, st', tr ++ [WStop r]) else None
  | CEnd, WUser :: st' => Some (mkW p cc l true q n, stack, tr ++ [WEnd])
  | CDone r, WUser :: st' => match remove1 r q with Some q' => Some (mkW p cc l e q' n, WCheck :: stack, tr ++ [WDone r]) | None => None end
  | CRet, WUser :: (_ :: _) as st' => Some (s, tl stack, tr)
  | _, _ => None
  end.
Fixpoint wexec (N : nat) (st : wst * list witem * list wevent) (cs : list cmd) : option (wst * list witem * list wevent) :=
  match cs with [] => Some st | c :: cs' => match wexec1 N st c with Some st' => wexec N st' cs' | None => None end end.

Lemma remove1_split : forall r q q', remove1 r q = Some q' -> exists a b, q = a ++ r :: b /\ q' = a ++ b.
Proof.
  induction q as [|x q IH]; intros q' H; [discriminate|]. cbn in H. destruct (Nat.eqb_spec x r) as [->|].
  - injection H as <-. exists [], q. auto.
  - destruct (remove1 r q) as [q0|]; [|discriminate]. injection H as <-. destruct (IH _ eq_refl) as (a & b & -> & ->). exists (x :: a), b. auto.
Qed.

Lemma wexec1_sound : forall N s stack tr c s' stack' tr', wreach N s stack tr -> wexec1 N (s, stack, tr) c = Some (s', stack', tr') -> wreach N s' stack' tr'.
Proof.
  intros N [p cc l e q n] stack tr c s' stack' tr' R H. cbn [wexec1] in H.
  destruct c; destruct stack as [|it stack]; try discriminate H; destruct it as [| |r0|r0 j0|r0|]; try discriminate H.
  - destruct e; [discriminate|]. injection H as <- <- <-. apply (w_item N _ _ _ _ _ [WLoop r0 k] _ R). constructor.
  - injection H as <- <- <-. apply (w_item N _ _ _ _ _ [WUser] _ R). constructor.
  - injection H as <- <- <-. apply (w_item N _ _ _ _ _ [WCheck] _ R). constructor.
  - injection H as <- <- <-. apply (w_item N _ _ _ _ _ [] _ R). constructor.
  - destruct (Nat.leb_spec N p).
    + injection H as <- <- <-. apply (w_item N _ _ _ _ _ [] _ R). constructor; auto.
    + injection H as <- <- <-. apply (w_item N _ _ _ _ _ [WUser; WStep n] _ R). constructor; auto.
  - destruct e; [|discriminate]. injection H as <- <- <-. apply (w_item N _ _ _ _ _ [] _ R). constructor.
  - destruct j0 as [|j0].
    + destruct (Nat.ltb_spec p N); [|discriminate]. injection H as <- <- <-. apply (w_item N _ _ _ _ _ [] _ R). constructor; auto.
    + injection H as <- <- <-. apply (w_item N _ _ _ _ _ [WUser; WReg r0; WLoop r0 j0] _ R). constructor.
  - injection H as <- <- <-. apply (w_item N _ _ _ _ _ _ _ R). constructor.
  - injection H as <- <- <-. apply w_end with e. exact R.
  - destruct (remove1 r q) as [q'|] eqn:E; [|discriminate]. injection H as <- <- <-. apply remove1_split in E as (a & b & -> & ->). apply w_done. exact R.
  - destruct stack as [|it stack]; [discriminate|]. injection H as <- <- <-. apply w_return in R; [exact R|discriminate].
Qed.
Lemma wexec_sound : forall N cs s stack tr s' stack' tr', wreach N s stack tr -> wexec N (s, stack, tr) cs = Some (s', stack', tr') -> wreach N s' stack' tr'.
Proof.
  intros N. induction cs as [|c cs IH]; intros s stack tr s' stack' tr' R H; cbn [wexec] in H; [injection H as <- <- <-; exact R|].
  destruct (wexec1 N (s, stack, tr) c) as [[[s1 st1] tr1]|] eqn:E; [|discriminate]. apply (IH s1 st1 tr1); [exact (wexec1_sound _ _ _ _ _ _ _ _ R E)|exact H].
Qed.
Definition start : wst * list witem * list wevent := (mkW 0 0 0 false [] 0, [WNext; WUser], []).
Lemma wexec_start : forall N cs s stack tr, wexec N start cs = Some (s, stack, tr) -> wreach N s stack tr.
Proof. intros N cs s stack tr H. apply (wexec_sound N cs _ _ _ _ _ _ (w_init N) H). Qed.

(** The first time step 0 returns a group that is complete, the second time one that is not; two steps are cut off
    instead of one, so step 1 is skipped. *)
Definition skip_cmds : list cmd :=
  [CGo; CRet; CStep 1; CGo; CRet; CNow; CGo; CGo; CRet; CStep 1; CGo; CRet; CLater; CGo; CGo; CDone 1; CGo; CGo].
Theorem skip_proof : exists s stack tr, wreach 3 s stack tr /\ runs tr = [0; 0; 2].
Proof.
  destruct (wexec 3 start skip_cmds) as [[[s stack] tr]|] eqn:E; [|vm_compute in E; discriminate E].
  exists s, stack, tr. split; [exact (wexec_start _ _ _ _ _ E)|]. vm_compute in E. injection E as <- <- <-. reflexivity.
Qed.

(** A flow of one step panics at flow.go:114. *)
Theorem panic_proof : exists s stack tr, wreach 1 s (WLoop 0 0 :: stack) tr /\ runs tr = [0; 0] /\ forall s' its evs, ~ wstep 1 s (WLoop 0 0) s' its evs.
Proof.
  destruct (wexec 1 start (firstn 14 skip_cmds)) as [[[s stack] tr]|] eqn:E; [|vm_compute in E; discriminate E].
  assert (R := wexec_start _ _ _ _ _ E). vm_compute in E. injection E as <- <- <-. eexists _, _, _. split; [exact R|]. split; [reflexivity|].
  intros s' its evs H. inversion H; subst. lia.
Qed.

(** End called while a group is awaited: the next step still starts. *)
Definition late_end_cmds : list cmd := [CGo; CRet; CStep 1; CGo; CRet; CLater; CGo; CEnd; CDone 0; CGo; CGo].
Theorem late_end_proof : exists s stack tr, wreach 2 s stack tr /\ tr = [WRun 0; WOpen 0 1; WClosed 0; WEnd; WDone 0; WRun 1].
Proof.
  destruct (wexec 2 start late_end_cmds) as [[[s stack] tr]|] eqn:E; [|vm_compute in E; discriminate E].
  exists s, stack, tr. split; [exact (wexec_start _ _ _ _ _ E)|]. vm_compute in E. injection E as <- <- <-. reflexivity.
Qed.

(** Two steps, the first of which waits for two things. *)
Definition good_cmds : list cmd := [CGo; CRet; CStep 2; CGo; CRet; CNow; CGo; CGo; CRet; CLater; CGo; CDone 0; CGo; CGo; CRet; CErr; CRet].
Theorem good_proof : exists s tr, wreach 2 s [WUser] tr /\ unhurried tr /\ tr = [WRun 0; WOpen 0 2; WDone 0; WClosed 0; WDone 0; WRun 1; WErr 1].
Proof.
  destruct (wexec 2 start good_cmds) as [[[s stack] tr]|] eqn:E; [|vm_compute in E; discriminate E].
  assert (R := wexec_start _ _ _ _ _ E). vm_compute in E. injection E as <- <- <-. eexists _, _. split; [exact R|]. split; [|reflexivity].
  intros a r b k Et Ho Hc.
  assert (X : (a = [WRun 0; WOpen 0 2] /\ r = 0) \/ (a = [WRun 0; WOpen 0 2; WDone 0; WClosed 0] /\ r = 0)).
  { do 7 (destruct a as [|? a]; [cbn in Et; try discriminate Et; injection Et as <- _; auto|]; cbn in Et; injection Et as <- Et).
    destruct a; discriminate Et. }
  destruct X as [[-> ->]|[-> ->]].
  - cbn in Ho. destruct Ho as [Ho|[Ho|[]]]; [discriminate|]. injection Ho as <-. cbn. lia.
  - exfalso. apply Hc. cbn. auto.
Qed.

(** Two steps that run to the end. *)
Definition whole_cmds : list cmd :=
  [CGo; CRet; CStep 1; CGo; CRet; CLater; CGo; CDone 0; CGo; CGo; CRet; CStep 1; CGo; CRet; CLater; CGo; CDone 1; CGo; CGo].
Theorem whole_proof : exists s tr, wreach 2 s [WUser] tr /\ unhurried tr /\ fulfilled tr /\
  tr = [WRun 0; WOpen 0 1; WClosed 0; WDone 0; WRun 1; WOpen 1 1; WClosed 1; WDone 1].
Proof.
  destruct (wexec 2 start whole_cmds) as [[[s stack] tr]|] eqn:E; [|vm_compute in E; discriminate E].
  assert (R := wexec_start _ _ _ _ _ E). vm_compute in E. injection E as <- <- <-. eexists _, _. split; [exact R|]. split; [|split; [|reflexivity]].
  - intros a r b k Et Ho Hc. exfalso. apply Hc.
    do 8 (destruct a as [|? a]; [cbn in Et; try discriminate Et; injection Et as <- _; cbn; auto 10|]; cbn in Et; injection Et as <- Et).
    destruct a; discriminate Et.
  - repeat split; cbn.
    + intros r H. repeat (destruct H as [H|H]; [discriminate H|]). exact H.
    + intro H. repeat (destruct H as [H|H]; [discriminate H|]). exact H.
    + repeat (destruct H as [H|H]; [try discriminate H; injection H as <- <-; auto|]). destruct H.
    + repeat (destruct H as [H|H]; [try discriminate H; injection H as <- <-; auto|]). destruct H.
Qed.
