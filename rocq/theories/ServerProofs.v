(** Proofs about the TCP server. *)
From Coq Require Import List Bool Arith Lia.
From Verif Require Import ServerModel ServerSpec.
Import ListNotations.

Lemma sruns_app : forall l1 l2 s, sruns s (l1 ++ l2) = match sruns s l1 with Some s' => sruns s' l2 | None => None end.
Proof. induction l1 as [|a l1 IH]; intros l2 s; [reflexivity|]. cbn [app sruns]. destruct (sstep s a); [apply IH|reflexivity]. Qed.
Lemma ran_snoc : forall tr a s, ran (tr ++ [a]) s -> exists s0, ran tr s0 /\ sstep s0 a = Some s.
Proof.
  intros tr a s R. unfold ran in *. rewrite sruns_app in R. destruct (sruns new_server tr) as [s0|]; [|discriminate R]. exists s0. split; [reflexivity|]. cbn [sruns] in R. destruct (sstep s0 a); [exact R|discriminate R].
Qed.
Lemma ran_nil : forall s, ran [] s -> s = new_server.
Proof. intros s R. unfold ran in R. cbn in R. congruence. Qed.

Lemma late_snoc : forall tr a, late (tr ++ [a]) -> late tr /\ (a = AClose -> In (AFactory true) tr).
Proof.
  intros tr a L. split.
  - intros pre post E. apply (L pre (post ++ [a])). rewrite E, <- app_assoc. reflexivity.
  - intros ->. exact (L tr [] eq_refl).
Qed.

(** ** The list of connections *)
Lemma upd_length : forall l c f, length (upd_conn l c f) = length l.
Proof.
  intros l c f. unfold upd_conn. destruct (nth_error l c) eqn:E; [|reflexivity]. assert (c < length l) by (apply nth_error_Some; congruence).
  rewrite app_length, firstn_length. cbn [length]. rewrite skipn_length. lia.
Qed.
Lemma upd_nth : forall l c f d, nth_error (upd_conn l c f) d = if d =? c then option_map f (nth_error l d) else nth_error l d.
Proof.
  intros l c f d. unfold upd_conn. destruct (nth_error l c) as [k|] eqn:E.
  - assert (L : c < length l) by (apply nth_error_Some; congruence). assert (Lf : length (firstn c l) = c) by (rewrite firstn_length; lia). destruct (Nat.eqb_spec d c) as [->|N].
    + rewrite nth_error_app2 by lia. rewrite Lf, Nat.sub_diag. cbn [nth_error]. rewrite E. reflexivity.
    + destruct (Nat.lt_ge_cases d c) as [D|D].
      * rewrite nth_error_app1 by lia. rewrite <- (firstn_skipn c l) at 2. rewrite nth_error_app1 by lia. reflexivity.
      * rewrite nth_error_app2 by lia. rewrite Lf. rewrite <- (firstn_skipn (S c) l) at 2. rewrite nth_error_app2; rewrite firstn_length; [|lia].
        replace (d - c) with (S (d - min (S c) (length l))) by lia. reflexivity.
  - destruct (Nat.eqb_spec d c) as [->|N]; [rewrite E; reflexivity|reflexivity].
Qed.
Definition close_all (cs : list conn) (m : list nat) : list conn := fold_left (fun cs c => upd_conn cs c close_conn) m cs.
Lemma close_all_nth : forall m cs d, nth_error (close_all cs m) d = if in_dec Nat.eq_dec d m then option_map close_conn (nth_error cs d) else nth_error cs d.
Proof.
  induction m as [|c m IH]; intros cs d; [reflexivity|]. cbn [close_all fold_left]. change (fold_left _ m ?x) with (close_all x m). rewrite IH, upd_nth.
  destruct (Nat.eqb_spec d c) as [->|N].
  - destruct (in_dec Nat.eq_dec c (c :: m)) as [_|X]; [|contradict X; left; reflexivity]. destruct (in_dec Nat.eq_dec c m); destruct (nth_error cs c); reflexivity.
  - destruct (in_dec Nat.eq_dec d m) as [X|X]; destruct (in_dec Nat.eq_dec d (c :: m)) as [Y|Y]; try reflexivity; [contradict Y; right; exact X|destruct Y as [Y|Y]; congruence].
Qed.
Lemma close_all_length : forall m cs, length (close_all cs m) = length cs.
Proof. induction m as [|c m IH]; intro cs; [reflexivity|]. cbn [close_all fold_left]. change (fold_left _ m ?x) with (close_all x m). rewrite IH. apply upd_length. Qed.

(** What Close does to an unclosed server with a listener. *)
Lemma close_server_open : forall b reg cs pc ctx w,
  close_server (mkServer false (Some b) (Some reg) cs pc ctx w) = mkServer true (Some false) None (close_all cs reg) pc ctx w.
Proof. reflexivity. Qed.

(** ** With no Close before there is a listener *)
Definition before (pc : lpc) : bool := match pc with LIdle | LFactory | LNotify false | LReturned (Some EListen) => true | _ => false end.
Definition holds (pc : lpc) (c : nat) : Prop := pc = LPut c \/ pc = LSpawn c.

Record sinv (tr : list saction) (s : server) : Prop := mkSinv {
  v_listener : sv_listener s = if before (sv_listen s) then None else Some (negb (sv_done s));
  v_factory : In (AFactory true) tr <-> before (sv_listen s) = false;
  v_none : before (sv_listen s) = true -> sv_conns s = [] /\ sv_done s = false;
  v_done : sv_done s = true -> sv_reg s = None;
  v_reg : sv_done s = false -> exists m, sv_reg s = Some m /\
    (forall c k, taken s c k -> In c m \/ In (ARemove c) tr) /\ (forall c, In c m -> exists k, taken s c k);
  v_closed : sv_done s = true -> forall c k, taken s c k -> k_open k = false \/ In (ARemove c) tr;
  v_held : forall c, holds (sv_listen s) c \/ sv_listen s = LRefuse c -> exists k, nth_error (sv_conns s) c = Some k /\ k_started k = false /\ S c = length (sv_conns s);
  v_refuse : forall c, sv_listen s = LRefuse c -> sv_done s = true;
  v_last : forall c k, nth_error (sv_conns s) c = Some k -> k_started k = false -> S c = length (sv_conns s) /\ (holds (sv_listen s) c \/ sv_done s = true);
  v_open : forall c k, nth_error (sv_conns s) c = Some k -> k_started k = false -> sv_listen s <> LSpawn c -> k_open k = true;
  v_watch : before (sv_listen s) = false -> sv_listen s <> LNotify true -> sv_done s = false -> sv_watcher s = true;
  v_returned : forall e, sv_listen s = LReturned e -> before (sv_listen s) = false -> sv_done s = true;
  v_defer : sv_listen s <> LDefer (Some EListen);
  v_watching : sv_watcher s = true -> before (sv_listen s) = false }.

Lemma sinv_new : sinv [] new_server.
Proof.
  constructor; cbn; try reflexivity; try discriminate; try (intros; discriminate).
  - split; [intros []|discriminate].
  - intros _. split; reflexivity.
  - intros _. exists []. split; [reflexivity|]. split; [|intros c []]. intros c k [T _]. cbn in T. destruct c; discriminate T.
  - intros c [[X|X]|X]; discriminate X.
  - intros c k X. destruct c; discriminate X.
  - intros c k X. destruct c; discriminate X.
Qed.

Definition extends (tr tr' : list saction) : Prop := (In (AFactory true) tr' <-> In (AFactory true) tr) /\ forall c, In (ARemove c) tr -> In (ARemove c) tr'.
Lemma extends_refl : forall tr, extends tr tr.
Proof. intro tr. split; [reflexivity|auto]. Qed.
Lemma extends_snoc : forall tr a, a <> AFactory true -> extends tr (tr ++ [a]).
Proof. intros tr a N. split; [rewrite in_app_iff; cbn; intuition congruence|]. intros c X. apply in_or_app. left. exact X. Qed.

(** Close, from a state with a listener. *)
Lemma sinv_close : forall tr tr' s, sinv tr s -> In (AFactory true) tr -> extends tr tr' -> sinv tr' (close_server s) /\ sv_done (close_server s) = true /\
  sv_listen (close_server s) = sv_listen s /\ length (sv_conns (close_server s)) = length (sv_conns s).
Proof.
  intros tr tr' s I F [X1 X2]. destruct I as [I1 I2 I3 I4 I5 I6 I7 I8 I9 I10 I11 I12 I13 I14]. assert (B := proj1 I2 F). destruct s as [done l reg cs pc ctx w]. cbn [sv_done sv_listener sv_reg sv_conns sv_listen sv_ctx sv_watcher] in *. rewrite B in *.
  assert (F' : In (AFactory true) tr' <-> false = false) by (split; [reflexivity|intros _; apply X1; exact F]).
  destruct done; cbn [negb] in *.
  - cbn [close_server]. split; [|repeat split]. constructor; cbn [sv_done sv_listener sv_reg sv_conns sv_listen sv_ctx sv_watcher]; rewrite ?B; cbn [negb]; try assumption; try (intros; discriminate); try (intros; reflexivity); try (intro X; discriminate X); auto.
    intros _ c k T. destruct (I6 eq_refl c k T) as [X|X]; [left; exact X|right; apply X2; exact X].
  - destruct (I5 eq_refl) as (m & -> & M1 & M2). rewrite I1. rewrite close_server_open. cbn [sv_done sv_listen sv_conns]. rewrite close_all_length. split; [|repeat split].
    assert (Inv : forall c k, nth_error (close_all cs m) c = Some k -> exists k0, nth_error cs c = Some k0 /\ k_started k0 = k_started k /\ (In c m /\ k_open k = false \/ ~ In c m /\ k0 = k)).
    { intros c k E. rewrite close_all_nth in E. destruct (in_dec Nat.eq_dec c m) as [Y|Y].
      - destruct (nth_error cs c) as [k0|]; [|discriminate E]. injection E as <-. exists k0. split; [reflexivity|]. split; [reflexivity|left; split; [exact Y|reflexivity]].
      - exists k. split; [exact E|]. split; [reflexivity|right; split; [exact Y|reflexivity]]. }
    constructor; cbn [sv_done sv_listener sv_reg sv_conns sv_listen sv_ctx sv_watcher]; rewrite ?B; cbn [negb]; try reflexivity; try assumption; try (intro X; discriminate X).
    + intros _ c k (E & T). cbn [sv_conns sv_listen] in E, T. destruct (Inv _ _ E) as (k0 & E0 & S0 & [[_ X]|[X ->]]); [left; exact X|]. destruct (M1 c k) as [Y|Y]; [split; assumption|contradiction|right; apply X2; exact Y].
    + intros c Hc. destruct (I7 c Hc) as (k & E & S0 & L). rewrite close_all_length. rewrite close_all_nth, E. destruct (in_dec Nat.eq_dec c m); eexists; (split; [reflexivity|]; split; [exact S0|exact L]).
    + intros c k E S0. destruct (Inv _ _ E) as (k0 & E0 & S1 & _). rewrite close_all_length. split; [|right; reflexivity]. apply (I9 c k0 E0). congruence.
    + intros c k E S0 Np. destruct (Inv _ _ E) as (k0 & E0 & S1 & [[X _]|[_ ->]]).
      * destruct (M2 _ X) as (k1 & E1 & [T|T]); cbn [sv_conns sv_listen] in *; [congruence|contradiction].
      * exact (I10 c k E0 S0 Np).
    + intros _ _ X. discriminate X.
Qed.

Ltac sflat := cbn [sv_done sv_listener sv_reg sv_conns sv_listen sv_ctx sv_watcher at_pc] in *.
Lemma in_snoc : forall {A} (x a : A) l, a <> x -> In x (l ++ [a]) <-> In x l.
Proof. intros A x a l N. rewrite in_app_iff. cbn. intuition congruence. Qed.

(** A step that leaves everything but the place of Listen, which holds no connection before and after. *)
Lemma sinv_pc : forall tr tr' s pc', sinv tr s -> extends tr tr' -> before pc' = before (sv_listen s) ->
  (forall c, ~ holds (sv_listen s) c) -> (forall c, ~ holds pc' c) -> (forall c, pc' <> LRefuse c) ->
  (forall e, pc' = LReturned e -> before pc' = false -> sv_done s = true) -> (before pc' = false -> sv_listen s <> LNotify true) -> pc' <> LDefer (Some EListen) ->
  sinv tr' (at_pc s pc').
Proof.
  intros tr tr' s pc' [I1 I2 I3 I4 I5 I6 I7 I8 I9 I10 I11 I12 I13 I14] [X1 X2] B H0 H1 H2 H3 H4 H5. destruct s as [done l reg cs pc ctx w]. sflat. rewrite <- B in *.
  assert (Nt : forall c k, taken (mkServer done l reg cs pc' ctx w) c k -> taken (mkServer done l reg cs pc ctx w) c k).
  { intros c k [E [T|T]]; sflat; [split; [exact E|left; exact T]|]. exfalso. apply (H1 c). right. exact T. }
  assert (Nt' : forall c k, taken (mkServer done l reg cs pc ctx w) c k -> taken (mkServer done l reg cs pc' ctx w) c k).
  { intros c k [E [T|T]]; sflat; [split; [exact E|left; exact T]|]. exfalso. apply (H0 c). right. exact T. }
  constructor; sflat; try assumption.
  - rewrite X1. exact I2.
  - intro D. destruct (I5 D) as (m & Q & M1 & M2). exists m. split; [exact Q|]. split.
    + intros c k T. destruct (M1 c k (Nt _ _ T)) as [X|X]; [left; exact X|right; apply X2; exact X].
    + intros c X. destruct (M2 c X) as [k T]. exists k. apply Nt', T.
  - intros D c k T. destruct (I6 D c k (Nt _ _ T)) as [X|X]; [left; exact X|right; apply X2; exact X].
  - intros c [X|X]; [contradiction (H1 c X)|contradiction (H2 c X)].
  - intros c X. contradiction (H2 c X).
  - intros c k E S0. destruct (I9 c k E S0) as [L [X|X]]; [contradiction (H0 c X)|]. split; [exact L|right; exact X].
  - intros c k E S0 _. apply (I10 c k E S0). intro X. apply (H0 c). right. exact X.
  - intros X _ D. apply I11; [exact X|exact (H4 X)|exact D].
Qed.

Lemma sinv_env : forall tr tr' done l reg cs pc ctx w ctx' w', sinv tr (mkServer done l reg cs pc ctx w) -> extends tr tr' ->
  (w' = true -> w = true) -> (done = false -> w' = w) -> sinv tr' (mkServer done l reg cs pc ctx' w').
Proof.
  intros tr tr' done l reg cs pc ctx w ctx' w' [I1 I2 I3 I4 I5 I6 I7 I8 I9 I10 I11 I12 I13 I14] [X1 X2] W1 W2. sflat. constructor; sflat; try assumption.
  - rewrite X1. exact I2.
  - intro D. destruct (I5 D) as (m & Q & M1 & M2). exists m. split; [exact Q|]. split; [|exact M2]. intros c k T. destruct (M1 c k T) as [X|X]; [left; exact X|right; apply X2; exact X].
  - intros D c k T. destruct (I6 D c k T) as [X|X]; [left; exact X|right; apply X2; exact X].
  - intros A B D. rewrite (W2 D). apply I11; assumption.
  - intro Y. apply I14, W1, Y.
Qed.

Lemma sinv_step : forall tr s a s', sinv tr s -> late (tr ++ [a]) -> sstep s a = Some s' -> sinv (tr ++ [a]) s'.
Proof.
  intros tr s a s' I L D. assert (I' := I). destruct (late_snoc _ _ L) as [Lt Lc]. destruct I as [I1 I2 I3 I4 I5 I6 I7 I8 I9 I10 I11 I12 I13 I14]. destruct s as [done l reg cs pc ctx w]. sflat.
  assert (Nh : forall c, ~ holds LAccept c) by (intros c [X|X]; discriminate X).
  destruct a as [|ok| | | | | | | | | |c|c].
  - destruct pc; cbn [sstep] in D; try discriminate D. injection D as <-. apply (sinv_pc tr _ (mkServer done l reg cs LIdle ctx w)); try assumption; try (apply extends_snoc; discriminate); try discriminate; try reflexivity; try (intros c [X|X]; discriminate X).
  - destruct pc; cbn [sstep] in D; try discriminate D. injection D as <-. destruct (I3 eq_refl) as [-> ->]. destruct ok.
    + destruct (I5 eq_refl) as (m & -> & M1 & M2). constructor; sflat; cbn [before negb]; try reflexivity; try discriminate; try (intros; discriminate).
      * split; [reflexivity|intros _; apply in_or_app; right; left; reflexivity].
      * intros _. exists m. split; [reflexivity|]. split; [intros c k [E _]; destruct c; discriminate E|]. intros c X. destruct (M2 c X) as (k & E & _). destruct c; discriminate E.
      * intros c [[X|X]|X]; discriminate X.
      * intros c k X. destruct c; discriminate X.
      * intros c k X. destruct c; discriminate X.
      * intros _ X. contradiction X. reflexivity.
    + assert (X := sinv_pc tr (tr ++ [AFactory false]) (mkServer false l reg [] LFactory ctx w) (LNotify false) I'). cbn [at_pc before] in X. sflat. rewrite I1 in X. cbn [before] in X. apply X; try (apply extends_snoc; discriminate); try discriminate; try reflexivity; try (intros c [Y|Y]; discriminate Y).
  - destruct pc as [| |[|]| | | | | |]; cbn [sstep] in D; try discriminate D; injection D as <-.
    + cbn [before] in *. destruct done; [|destruct (I5 eq_refl) as (m & -> & M1 & M2)]; constructor; sflat; cbn [before negb]; try reflexivity; try assumption; try discriminate; try (intros; discriminate).
      all: try (rewrite in_snoc by discriminate; exact I2).
      all: try (intros c [[X|X]|X]; discriminate X).
      all: try (intros c k E S0; destruct (I9 c k E S0) as [Ls [[X|X]|X]]; [discriminate X|discriminate X|split; [exact Ls|right; exact X]]).
      all: try (intros c k E S0 _; apply (I10 c k E S0); discriminate).
      * intros _ c k [E [T|T]]; sflat; [|discriminate T]. destruct (I6 eq_refl c k) as [X|X]; [split; [exact E|left; exact T]|left; exact X|right; apply in_or_app; left; exact X].
      * intros _. exists m. split; [reflexivity|]. split.
        -- intros c k [E [T|T]]; sflat; [|discriminate T]. destruct (M1 c k) as [X|X]; [split; [exact E|left; exact T]|left; exact X|right; apply in_or_app; left; exact X].
        -- intros c X. destruct (M2 c X) as (k & E & [T|T]); sflat; [|discriminate T]. exists k. split; [exact E|left; exact T].
    + apply (sinv_pc tr _ (mkServer done l reg cs (LNotify false) ctx w)); try assumption; try (apply extends_snoc; discriminate); try discriminate; try reflexivity; try (intros c [X|X]; discriminate X).
  - destruct pc; cbn [sstep] in D; try discriminate D. cbn [before] in *. destruct l as [[|]|]; try discriminate D. injection D as <-. destruct done; [discriminate I1|]. destruct (I5 eq_refl) as (m & -> & M1 & M2).
    assert (St : forall c k, nth_error cs c = Some k -> k_started k = true).
    { intros c k E. destruct (k_started k) eqn:S0; [reflexivity|]. destruct (I9 c k E S0) as [_ [X|X]]; [contradiction (Nh c X)|discriminate X]. }
    assert (Nx : forall c k, nth_error (cs ++ [mkConn true false false 0]) c = Some k -> c < length cs /\ nth_error cs c = Some k \/ c = length cs /\ k = mkConn true false false 0).
    { intros c k E. destruct (Nat.lt_ge_cases c (length cs)) as [Y|Y]; [left; rewrite nth_error_app1 in E by exact Y; split; assumption|right]. rewrite nth_error_app2 in E by exact Y.
      destruct (c - length cs) as [|j] eqn:Q; cbn [nth_error] in E; [injection E as <-; split; [lia|reflexivity]|]. destruct j; discriminate E. }
    constructor; sflat; cbn [before negb]; try reflexivity; try assumption; try discriminate; try (intros; discriminate).
    + rewrite in_snoc by discriminate. exact I2.
    + intros _. exists m. split; [reflexivity|]. split.
      * intros c k [E [T|T]]; sflat; [|discriminate T]. destruct (Nx _ _ E) as [[_ Y]|[_ ->]]; [|discriminate T]. destruct (M1 c k) as [X|X]; [split; [exact Y|left; exact T]|left; exact X|right; apply in_or_app; left; exact X].
      * intros c X. destruct (M2 c X) as (k & E & [T|T]); sflat; [|discriminate T]. exists k. split; [|left; exact T]. sflat. rewrite nth_error_app1; [exact E|]. apply nth_error_Some. congruence.
    + intros c [[X|X]|X]; try discriminate X. injection X as <-. exists (mkConn true false false 0). rewrite nth_error_app2, Nat.sub_diag by reflexivity. rewrite app_length. cbn [length]. repeat split. lia.
    + intros c k E S0. destruct (Nx _ _ E) as [[_ Y]|[-> ->]]; [rewrite (St _ _ Y) in S0; discriminate S0|]. rewrite app_length. cbn [length]. split; [lia|left; left; reflexivity].
    + intros c k E S0 _. destruct (Nx _ _ E) as [[_ Y]|[-> ->]]; [rewrite (St _ _ Y) in S0; discriminate S0|reflexivity].
    + intros _ _ Q. apply I11; [reflexivity|discriminate|exact Q].
  - destruct pc; cbn [sstep] in D; try discriminate D. injection D as <-. apply (sinv_pc tr _ (mkServer done l reg cs LAccept ctx w)); try assumption; try (apply extends_snoc; discriminate); try discriminate; try reflexivity; intros c [X|X]; discriminate X.
  - destruct pc; cbn [sstep] in D; try discriminate D. injection D as <-. apply (sinv_pc tr _ (mkServer done l reg cs LAccept ctx w)); try assumption; try (apply extends_snoc; discriminate); try discriminate; try reflexivity; intros c [X|X]; discriminate X.
  - destruct pc; cbn [sstep] in D; try discriminate D; cbn [before] in *.
    + (* put *)
      assert (Hc := I7 c (or_introl (or_introl eq_refl))). destruct Hc as (k0 & E0 & S0 & Ls). destruct done.
      * injection D as <-. constructor; sflat; cbn [before negb]; try reflexivity; try assumption; try discriminate; try (intros; discriminate).
        -- rewrite in_snoc by discriminate. exact I2.
        -- intros _ d k [E [T|T]]; sflat; [|discriminate T]. destruct (I6 eq_refl d k) as [X|X]; [split; [exact E|left; exact T]|left; exact X|right; apply in_or_app; left; exact X].
        -- intros d [[X|X]|X]; try discriminate X. injection X as <-. exists k0. repeat split; assumption.
        -- intros d k E S1. destruct (I9 d k E S1) as [Q _]. split; [exact Q|right; reflexivity].
        -- intros d k E S1 _. apply (I10 d k E S1). discriminate.
      * destruct (I5 eq_refl) as (m & -> & M1 & M2). injection D as <-. constructor; sflat; cbn [before negb]; try reflexivity; try assumption; try discriminate; try (intros; discriminate).
        -- rewrite in_snoc by discriminate. exact I2.
        -- intros _. exists (m ++ [c]). split; [reflexivity|]. split.
           ++ intros d k [E [T|T]]; sflat.
              ** destruct (M1 d k) as [X|X]; [split; [exact E|left; exact T]|left; apply in_or_app; left; exact X|right; apply in_or_app; left; exact X].
              ** injection T as <-. left. apply in_or_app. right. left. reflexivity.
           ++ intros d X. apply in_app_or in X as [X|[<-|[]]].
              ** destruct (M2 d X) as (k & E & [T|T]); sflat; [|discriminate T]. exists k. split; [exact E|left; exact T].
              ** exists k0. split; [exact E0|right; reflexivity].
        -- intros d [[X|X]|X]; try discriminate X. injection X as <-. exists k0. repeat split; assumption.
        -- intros d k E S1. destruct (I9 d k E S1) as [Q [[X|X]|X]]; [|discriminate X|discriminate X]. injection X as <-. split; [exact Q|left; right; reflexivity].
        -- intros d k E S1 _. apply (I10 d k E S1). discriminate.
        -- intros _ _ Q. apply I11; [reflexivity|discriminate|exact Q].
    + (* spawn *)
      destruct (I7 c (or_introl (or_intror eq_refl))) as (k0 & E0 & S0 & Ls). injection D as <-. set (f := fun k => mkConn (k_open k) true (k_ended k) (S (k_accepted k))).
      assert (Nx : forall d k, nth_error (upd_conn cs c f) d = Some k -> d <> c /\ nth_error cs d = Some k \/ d = c /\ k = f k0).
      { intros d k E. rewrite upd_nth in E. destruct (Nat.eqb_spec d c) as [->|N]; [|left; split; assumption]. rewrite E0 in E. injection E as <-. right. split; reflexivity. }
      constructor; sflat; cbn [before negb]; rewrite ?upd_length; try reflexivity; try assumption; try discriminate; try (intros; discriminate).
      * rewrite in_snoc by discriminate. exact I2.
      * intro Dn. destruct (I5 Dn) as (m & Q & M1 & M2). exists m. split; [exact Q|]. split.
        -- intros d k [E [T|T]]; sflat; [|discriminate T]. destruct (Nx _ _ E) as [[N Y]|[-> ->]].
           ++ destruct (M1 d k) as [X|X]; [split; [exact Y|left; exact T]|left; exact X|right; apply in_or_app; left; exact X].
           ++ destruct (M1 c k0) as [X|X]; [split; [exact E0|right; reflexivity]|left; exact X|right; apply in_or_app; left; exact X].
        -- intros d X. destruct (M2 d X) as (k & E & T); sflat. destruct (Nat.eq_dec d c) as [->|N].
           ++ exists (f k0). split; [|left; reflexivity]. sflat. rewrite upd_nth, Nat.eqb_refl, E0. reflexivity.
           ++ exists k. destruct T as [T|T]; [|congruence]. split; [|left; exact T]. sflat. rewrite upd_nth. destruct (Nat.eqb_spec d c); [contradiction|exact E].
      * intros Dn d k [E [T|T]]; sflat; [|discriminate T]. destruct (Nx _ _ E) as [[N Y]|[-> ->]].
        -- destruct (I6 Dn d k) as [X|X]; [split; [exact Y|left; exact T]|left; exact X|right; apply in_or_app; left; exact X].
        -- destruct (I6 Dn c k0) as [X|X]; [split; [exact E0|right; reflexivity]|left; exact X|right; apply in_or_app; left; exact X].
      * intros d [[X|X]|X]; discriminate X.
      * intros d k E S1. destruct (Nx _ _ E) as [[N Y]|[-> ->]]; [|discriminate S1]. destruct (I9 d k Y S1) as [Q [[X|X]|X]]; [discriminate X|congruence|]. split; [exact Q|right; exact X].
      * intros d k E S1 _. destruct (Nx _ _ E) as [[N Y]|[-> ->]]; [|discriminate S1]. apply (I10 d k Y S1). congruence.
      * intros _ _ Q. apply I11; [reflexivity|discriminate|exact Q].
    + (* refuse *)
      assert (Dn := I8 c eq_refl). subst done. cbn [close_server at_pc] in D. injection D as <-. apply (sinv_pc tr _ (mkServer true l reg cs (LRefuse c) ctx w)); try assumption; try (apply extends_snoc; discriminate); try discriminate; try reflexivity; intros d [X|X]; discriminate X.
    + (* the deferred Close *)
      destruct (sinv_close tr tr _ I' (proj2 I2 eq_refl) (extends_refl tr)) as (Ic & Dc & Pc & _). sflat. injection D as <-.
      apply (sinv_pc tr _ (close_server (mkServer done l reg cs (LDefer e) ctx w))); try assumption; try (apply extends_snoc; discriminate); try (rewrite Pc); try discriminate; try (intros c [X|X]; discriminate X); try reflexivity.
      * cbn [before]. destruct e as [[|]|]; [contradiction I13; reflexivity|reflexivity|reflexivity].
      * intros e0 _ _. exact Dc.
  - cbn [sstep] in D. injection D as <-. exact (proj1 (sinv_close tr (tr ++ [AClose]) _ I' (Lc eq_refl) (extends_snoc tr AClose ltac:(discriminate)))).
  - cbn [sstep] in D. destruct ctx; [discriminate D|]. injection D as <-. apply (sinv_env tr _ done l reg cs pc false w); [exact I'|apply extends_snoc; discriminate|auto|auto].
  - cbn [sstep] in D. destruct w; [|discriminate D]. destruct ctx; [|discriminate D]. cbn [andb] in D.
    destruct (sinv_close tr tr _ I' (proj2 I2 (I14 eq_refl)) (extends_refl tr)) as (Ic & Dc & _). destruct (close_server (mkServer done l reg cs pc true true)) as [done1 l1 reg1 cs1 pc1 ctx1 w1]. sflat. injection D as <-.
    apply (sinv_env tr _ done1 l1 reg1 cs1 pc1 ctx1 w1); [exact Ic|apply extends_snoc; discriminate|discriminate|congruence].
  - cbn [sstep] in D. destruct w; [|discriminate D]. destruct done; [|discriminate D]. injection D as <-. apply (sinv_env tr _ true l reg cs pc ctx true); [exact I'|apply extends_snoc; discriminate|auto|discriminate].
  - cbn [sstep] in D. destruct (nth_error cs c) as [k0|] eqn:E0; [|discriminate D]. destruct (k_started k0) eqn:S0; [|discriminate D]. destruct (k_ended k0) eqn:En; [discriminate D|]. cbn [andb negb] in D. injection D as <-.
    set (f := fun k => mkConn false (k_started k) true (k_accepted k)).
    assert (Nx : forall d k, nth_error (upd_conn cs c f) d = Some k -> d <> c /\ nth_error cs d = Some k \/ d = c /\ k = f k0).
    { intros d k E. rewrite upd_nth in E. destruct (Nat.eqb_spec d c) as [->|N]; [|left; split; assumption]. rewrite E0 in E. injection E as <-. right. split; reflexivity. }
    constructor; sflat; rewrite ?upd_length; try assumption.
    + rewrite in_snoc by discriminate. exact I2.
    + intro B. destruct (I3 B) as [-> X]. destruct c; discriminate E0.
    + intro Dn. destruct (I5 Dn) as (m & Q & M1 & M2). exists m. split; [exact Q|]. split.
      * intros d k [E T]; sflat. destruct (Nx _ _ E) as [[N Y]|[-> ->]].
        -- destruct (M1 d k) as [X|X]; [split; assumption|left; exact X|right; apply in_or_app; left; exact X].
        -- destruct (M1 c k0) as [X|X]; [split; [exact E0|left; exact S0]|left; exact X|right; apply in_or_app; left; exact X].
      * intros d X. destruct (M2 d X) as (k & E & T); sflat. destruct (Nat.eq_dec d c) as [->|N].
        -- exists (f k0). split; [|left; exact S0]. sflat. rewrite upd_nth, Nat.eqb_refl, E0. reflexivity.
        -- exists k. split; [|exact T]. sflat. rewrite upd_nth. destruct (Nat.eqb_spec d c); [contradiction|exact E].
    + intros Dn d k [E T]; sflat. destruct (Nx _ _ E) as [[N Y]|[-> ->]]; [|left; reflexivity]. destruct (I6 Dn d k) as [X|X]; [split; assumption|left; exact X|right; apply in_or_app; left; exact X].
    + intros d Hd. destruct (I7 d Hd) as (k & E & S1 & Ls). exists k. split; [|split; assumption]. rewrite upd_nth. destruct (Nat.eqb_spec d c) as [->|N]; [congruence|exact E].
    + intros d k E S1. destruct (Nx _ _ E) as [[N Y]|[-> ->]]; [|cbn [f k_started] in S1; congruence]. exact (I9 d k Y S1).
    + intros d k E S1 Np. destruct (Nx _ _ E) as [[N Y]|[-> ->]]; [|cbn [f k_started] in S1; congruence]. exact (I10 d k Y S1 Np).
  - cbn [sstep] in D. injection D as <-. constructor; sflat; try assumption.
    + rewrite in_snoc by discriminate. exact I2.
    + intro Dn. rewrite (I4 Dn). reflexivity.
    + intro Dn. destruct (I5 Dn) as (m & -> & M1 & M2). exists (filter (fun d => negb (d =? c)) m). split; [reflexivity|]. split.
      * intros d k T. destruct (Nat.eq_dec d c) as [->|N]; [right; apply in_or_app; right; left; reflexivity|]. destruct (M1 d k T) as [X|X]; [left|right; apply in_or_app; left; exact X].
        apply filter_In. split; [exact X|]. destruct (Nat.eqb_spec d c); [contradiction|reflexivity].
      * intros d X. apply filter_In in X as [X _]. destruct (M2 d X) as [k T]. exists k. exact T.
    + intros Dn d k T. destruct (I6 Dn d k T) as [X|X]; [left; exact X|right; apply in_or_app; left; exact X].
Qed.

Lemma ran_sinv : forall tr s, ran tr s -> late tr -> sinv tr s.
Proof.
  intro tr. induction tr as [|a tr IH] using rev_ind; intros s R L.
  - rewrite (ran_nil _ R). apply sinv_new.
  - destruct (ran_snoc _ _ _ R) as (s0 & R0 & D). apply (sinv_step tr s0 a s); [apply IH; [exact R0|exact (proj1 (late_snoc _ _ L))]|exact L|exact D].
Qed.

(** ** Closed too early *)
Lemma no_factory : forall tr s, ran tr s -> ~ In (AFactory true) tr -> sv_listener s = None /\ sv_conns s = [] /\ before (sv_listen s) = true /\ sv_watcher s = false.
Proof.
  intro tr. induction tr as [|a tr IH] using rev_ind; intros s R N.
  - rewrite (ran_nil _ R). repeat split.
  - destruct (ran_snoc _ _ _ R) as (s0 & R0 & D). destruct (IH s0 R0) as (A & B & C & W); [intro X; apply N, in_or_app; left; exact X|]. destruct s0 as [done l reg cs pc ctx w]. sflat. subst l cs w.
    assert (Na : a <> AFactory true) by (intros ->; apply N, in_or_app; right; left; reflexivity). clear N R R0 IH.
    destruct a as [|[|]| | | | | | | | | |c|c]; try (contradiction Na; reflexivity); destruct pc as [| |[|]| | | | | |]; cbn [before] in C; try discriminate C; cbn in D; try discriminate D;
      try (destruct done; injection D as <-; sflat; repeat split; exact C); try (destruct ctx; [discriminate D|]; injection D as <-; sflat; repeat split; exact C); destruct c; discriminate D.
Qed.

Record einv (s : server) : Prop := mkEinv {
  e_done : sv_done s = true; e_listener : sv_listener s <> Some false; e_spawn : forall c, sv_listen s <> LSpawn c;
  e_conns : forall c k, nth_error (sv_conns s) c = Some k -> k_open k = true /\ k_started k = false /\ k_accepted k = 0 }.
Lemma einv_step : forall s a s', einv s -> sstep s a = Some s' -> einv s'.
Proof.
  intros s a s' [E1 E2 E3 E4] D. destruct s as [done l reg cs pc ctx w]. sflat. subst done.
  destruct a as [|ok| | | | | | | | | |c|c].
  1-7: destruct pc as [| |[|]| | | | | |]; cbn in D; try discriminate D; try (injection D as <-; constructor; sflat; (assumption || discriminate || reflexivity)).
  - injection D as <-. constructor; sflat; [reflexivity|destruct ok; discriminate|discriminate|exact E4].
  - destruct l as [[|]|]; try discriminate D. injection D as <-. constructor; sflat; [reflexivity|discriminate|discriminate|]. intros c k E. destruct (Nat.lt_ge_cases c (length cs)) as [Y|Y]; [rewrite nth_error_app1 in E by exact Y; exact (E4 c k E)|].
    rewrite nth_error_app2 in E by exact Y. destruct (c - length cs) as [|j]; cbn [nth_error] in E; [injection E as <-; repeat split|destruct j; discriminate E].
  - contradiction (E3 c eq_refl).
  - cbn in D. injection D as <-. constructor; sflat; assumption || reflexivity.
  - cbn in D. destruct ctx; [discriminate D|]. injection D as <-. constructor; sflat; assumption || reflexivity.
  - cbn in D. destruct (w && ctx); [|discriminate D]. injection D as <-. constructor; sflat; assumption || reflexivity.
  - cbn in D. destruct w; [|discriminate D]. injection D as <-. constructor; sflat; assumption || reflexivity.
  - cbn in D. destruct (nth_error cs c) as [k|] eqn:E; [|discriminate D]. destruct (E4 c k E) as (_ & S0 & _). rewrite S0 in D. discriminate D.
  - cbn in D. injection D as <-. constructor; sflat; assumption || reflexivity.
Qed.
Lemma early_einv : forall tr s, ran tr s -> early tr -> einv s.
Proof.
  intros tr s R (pre & post & -> & N). unfold ran in R. rewrite sruns_app in R. destruct (sruns new_server pre) as [s0|] eqn:R0; [|discriminate R]. destruct (no_factory pre s0 R0 N) as (A & B & C & W).
  cbn [sruns] in R. destruct (sstep s0 AClose) as [s1|] eqn:D; [|discriminate R].
  assert (E : einv s1).
  { destruct s0 as [done l reg cs pc ctx w]. sflat. subst l cs w. assert (P : forall c, pc <> LSpawn c) by (intros c ->; discriminate C).
    cbn in D. destruct done; injection D as <-; constructor; sflat; try reflexivity; try discriminate; try exact P; intros c k X; destruct c; discriminate X. }
  clear - E R. revert s1 E R. induction post as [|a post IH]; intros s1 E R; cbn [sruns] in R; [congruence|]. destruct (sstep s1 a) as [s2|] eqn:D; [|discriminate R]. exact (IH s2 (einv_step _ _ _ E D) R).
Qed.
Lemma early_or_late : forall tr, early tr \/ late tr.
Proof.
  intro tr. induction tr as [|a tr IH] using rev_ind; [right; intros pre post E; destruct pre; discriminate E|]. destruct IH as [(pre & post & -> & N)|L].
  - left. exists pre, (post ++ [a]). rewrite <- app_assoc. split; [reflexivity|exact N].
  - assert (Dc : forall x y : saction, {x = y} + {x <> y}) by (repeat decide equality). destruct (Dc a AClose) as [->|Na].
    + destruct (in_dec Dc (AFactory true) tr) as [Y|Y]; [right|left; exists tr, []; split; [reflexivity|exact Y]].
      intros pre post E. destruct post as [|b post] using rev_ind; [apply app_inj_tail in E as [-> _]; exact Y|]. clear IHpost. change (pre ++ AClose :: post ++ [b]) with (pre ++ (AClose :: post) ++ [b]) in E. rewrite app_assoc in E. apply app_inj_tail in E as [E _]. exact (L pre post E).
    + right. intros pre post E. destruct post as [|b post] using rev_ind; [apply app_inj_tail in E as [_ E]; contradiction|]. clear IHpost. change (pre ++ AClose :: post ++ [b]) with (pre ++ (AClose :: post) ++ [b]) in E. rewrite app_assoc in E. apply app_inj_tail in E as [E _]. exact (L pre post E).
Qed.

(** ** What holds always *)
Record ginv (tr : list saction) (s : server) : Prop := mkGinv {
  g_conn : forall c k, nth_error (sv_conns s) c = Some k -> k_accepted k = (if k_started k then 1 else 0) /\ (k_ended k = true -> k_started k = true /\ k_open k = false);
  g_held : forall c, holds (sv_listen s) c -> exists k, nth_error (sv_conns s) c = Some k /\ k_started k = false;
  g_notify : sv_listen s = LNotify false -> In (AFactory false) tr;
  g_result : forall e, sv_listen s = LDefer e \/ sv_listen s = LReturned e -> justified e tr }.

Lemma close_server_parts : forall s, sv_listen (close_server s) = sv_listen s /\
  forall c k, nth_error (sv_conns (close_server s)) c = Some k -> exists k0, nth_error (sv_conns s) c = Some k0 /\ (k = k0 \/ k = close_conn k0).
Proof.
  intros [done l reg cs pc ctx w]. destruct done; [split; [reflexivity|intros c k E; exists k; split; [exact E|left; reflexivity]]|]. destruct l as [b|]; [|split; [reflexivity|intros c k E; exists k; split; [exact E|left; reflexivity]]].
  split; [reflexivity|]. intros c k E. change (sv_conns _) with (close_all cs (match reg with Some m => m | None => [] end)) in E. rewrite close_all_nth in E. cbn [sv_conns].
  destruct (in_dec Nat.eq_dec c _); [|exists k; split; [exact E|left; reflexivity]]. destruct (nth_error cs c) as [k0|]; [|discriminate E]. injection E as <-. exists k0. split; [reflexivity|right; reflexivity].
Qed.
Lemma close_server_nth : forall s c k0, nth_error (sv_conns s) c = Some k0 -> exists k, nth_error (sv_conns (close_server s)) c = Some k /\ (k = k0 \/ k = close_conn k0).
Proof.
  intros [done l reg cs pc ctx w] c k0 E. destruct done; [exists k0; split; [exact E|left; reflexivity]|]. destruct l as [b|]; [|exists k0; split; [exact E|left; reflexivity]].
  change (sv_conns _) with (close_all cs (match reg with Some m => m | None => [] end)). rewrite close_all_nth. cbn [sv_conns] in E. rewrite E. destruct (in_dec Nat.eq_dec c _); eexists; (split; [reflexivity|]); [right; reflexivity|left; reflexivity].
Qed.

Lemma justified_more : forall e tr a, justified e tr -> justified e (tr ++ [a]).
Proof. intros [[|]|] tr a J; apply in_or_app; left; exact J. Qed.

Lemma ginv_close : forall tr a s, ginv tr s -> ginv (tr ++ [a]) (close_server s).
Proof.
  intros tr a s [G1 G2 G3 G4]. destruct (close_server_parts s) as [P Q]. constructor; rewrite ?P.
  - intros c k E. destruct (Q c k E) as (k0 & E0 & [->| ->]); [exact (G1 c k0 E0)|]. destruct (G1 c k0 E0) as [A B]. split; [exact A|]. intro X. split; [apply B; exact X|reflexivity].
  - intros c Hc. destruct (G2 c Hc) as (k0 & E0 & S0). destruct (close_server_nth s c k0 E0) as (k & E & [->| ->]); eexists; (split; [exact E|exact S0]).
  - intro X. apply in_or_app. left. exact (G3 X).
  - intros e X. apply justified_more, G4, X.
Qed.

Lemma ginv_step : forall tr s a s', ginv tr s -> sstep s a = Some s' -> ginv (tr ++ [a]) s'.
Proof.
  intros tr s a s' G D. assert (G' := G). destruct G as [G1 G2 G3 G4]. destruct s as [done l reg cs pc ctx w]. sflat.
  assert (In_last : forall x, In x (tr ++ [x])) by (intro x; apply in_or_app; right; left; reflexivity).
  assert (Up : forall c (k0 : conn) f, nth_error cs c = Some k0 -> forall d k, nth_error (upd_conn cs c f) d = Some k -> nth_error cs d = Some k \/ d = c /\ k = f k0).
  { intros c k0 f E0 d k E. rewrite upd_nth in E. destruct (Nat.eqb_spec d c) as [->|N]; [|left; exact E]. rewrite E0 in E. injection E as <-. right. split; reflexivity. }
  destruct a as [|ok| | | | | | | | | |c|c].
  - destruct pc; cbn in D; try discriminate D. injection D as <-. constructor; sflat; try assumption; try discriminate; [intros c [X|X]; discriminate X|intros e [X|X]; discriminate X].
  - destruct pc; cbn in D; try discriminate D. injection D as <-. constructor; sflat; try assumption; [intros c [X|X]; discriminate X|intro X; injection X as ->; apply In_last|intros e [X|X]; discriminate X].
  - destruct pc as [| |[|]| | | | | |]; cbn in D; try discriminate D; injection D as <-; constructor; sflat; try assumption; try discriminate; try (intros c [X|X]; discriminate X); try (intros e [X|X]; discriminate X).
    intros e [X|X]; [discriminate X|]. injection X as <-. apply in_or_app. left. exact (G3 eq_refl).
  - destruct pc; cbn in D; try discriminate D. destruct l as [[|]|]; try discriminate D. injection D as <-. constructor; sflat; try discriminate; try (intros e [X|X]; discriminate X).
    + intros c k E. destruct (Nat.lt_ge_cases c (length cs)) as [Y|Y]; [rewrite nth_error_app1 in E by exact Y; exact (G1 c k E)|].
      rewrite nth_error_app2 in E by exact Y. destruct (c - length cs) as [|j]; cbn [nth_error] in E; [injection E as <-; split; [reflexivity|discriminate]|destruct j; discriminate E].
    + intros c [X|X]; [|discriminate X]. injection X as <-. eexists. rewrite nth_error_app2, Nat.sub_diag by reflexivity. split; reflexivity.
  - destruct pc; cbn in D; try discriminate D. injection D as <-. constructor; sflat; try assumption; try discriminate; [intros c [X|X]; discriminate X|intros e [X|X]; [|discriminate X]]. injection X as <-. apply In_last.
  - destruct pc; cbn in D; try discriminate D. injection D as <-. constructor; sflat; try assumption; try discriminate; [intros c [X|X]; discriminate X|intros e [X|X]; [|discriminate X]]. injection X as <-. apply In_last.
  - destruct pc; cbn [sstep] in D; try discriminate D.
    + destruct (G2 c (or_introl eq_refl)) as (k0 & E0 & S0). destruct done; [|destruct reg as [m|]]; injection D as <-; constructor; sflat; try assumption; try discriminate; try (intros e [X|X]; discriminate X); try (intros d [X|X]; discriminate X).
      intros d [X|X]; [discriminate X|]. injection X as <-. exists k0. split; assumption.
    + destruct (G2 c (or_intror eq_refl)) as (k0 & E0 & S0). injection D as <-. constructor; sflat; try discriminate; try (intros e [X|X]; discriminate X); try (intros d [X|X]; discriminate X).
      intros d k E. destruct (Up _ _ _ E0 _ _ E) as [Y|[-> ->]]; [exact (G1 d k Y)|]. cbn [k_accepted k_started k_ended k_open]. destruct (G1 c k0 E0) as [A B]. rewrite S0 in *. split; [rewrite A; reflexivity|]. intro X. destruct (B X) as [Y _]. discriminate Y.
    + assert (Gc := ginv_close tr AListenStep _ G'). destruct (close_server_parts (mkServer done l reg cs (LRefuse c) ctx w)) as [P _]. destruct (close_server (mkServer done l reg cs (LRefuse c) ctx w)) as [done1 l1 reg1 cs1 pc1 ctx1 w1]. sflat. subst pc1. cbn [at_pc] in D. injection D as <-.
      destruct Gc as [K1 K2 K3 K4]. constructor; sflat; try assumption; try discriminate; try (intros e [X|X]; discriminate X); try (intros d [X|X]; discriminate X).
    + assert (Gc := ginv_close tr AListenStep _ G'). destruct (close_server_parts (mkServer done l reg cs (LDefer e) ctx w)) as [P _]. destruct (close_server (mkServer done l reg cs (LDefer e) ctx w)) as [done1 l1 reg1 cs1 pc1 ctx1 w1]. sflat. subst pc1. cbn [at_pc] in D. injection D as <-.
      destruct Gc as [K1 K2 K3 K4]. constructor; sflat; try assumption; try discriminate; try (intros d [X|X]; discriminate X). intros e0 [X|X]; [discriminate X|]. injection X as <-. apply K4. left. reflexivity.
  - cbn [sstep] in D. injection D as <-. exact (ginv_close tr AClose _ G').
  - cbn [sstep] in D. destruct ctx; [discriminate D|]. injection D as <-. constructor; sflat; try assumption; [intro X; apply in_or_app; left; exact (G3 X)|intros e X; apply justified_more, G4, X].
  - cbn [sstep] in D. destruct (w && ctx); [|discriminate D]. assert (Gc := ginv_close tr AWatchCtx _ G'). destruct (close_server (mkServer done l reg cs pc ctx w)) as [done1 l1 reg1 cs1 pc1 ctx1 w1]. injection D as <-. destruct Gc as [K1 K2 K3 K4]. constructor; sflat; assumption.
  - cbn [sstep] in D. destruct (w && done); [|discriminate D]. injection D as <-. constructor; sflat; try assumption; [intro X; apply in_or_app; left; exact (G3 X)|intros e X; apply justified_more, G4, X].
  - cbn [sstep] in D. destruct (nth_error cs c) as [k0|] eqn:E0; [|discriminate D]. destruct (k_started k0) eqn:S0; [|discriminate D]. destruct (k_ended k0) eqn:En; [discriminate D|]. cbn [andb negb] in D. injection D as <-.
    constructor; sflat; try assumption; [|  |intro X; apply in_or_app; left; exact (G3 X)|intros e X; apply justified_more, G4, X].
    + intros d k E. destruct (Up _ _ _ E0 _ _ E) as [Y|[-> ->]]; [exact (G1 d k Y)|]. cbn [k_accepted k_started k_ended k_open]. split; [apply (G1 c k0 E0)|]. intros _. split; [exact S0|reflexivity].
    + intros d Hd. destruct (G2 d Hd) as (k & E & S1). exists k. split; [|exact S1]. rewrite upd_nth. destruct (Nat.eqb_spec d c) as [->|N]; [congruence|exact E].
  - cbn [sstep] in D. injection D as <-. constructor; sflat; try assumption; [intro X; apply in_or_app; left; exact (G3 X)|intros e X; apply justified_more, G4, X].
Qed.
Lemma ran_ginv : forall tr s, ran tr s -> ginv tr s.
Proof.
  intro tr. induction tr as [|a tr IH] using rev_ind; intros s R.
  - rewrite (ran_nil _ R). constructor; cbn; try discriminate; try (intros c k X; destruct c; discriminate X); [intros c [X|X]; discriminate X|intros e [X|X]; discriminate X].
  - destruct (ran_snoc _ _ _ R) as (s0 & R0 & D). exact (ginv_step tr s0 a s (IH s0 R0) D).
Qed.

Lemma close_done : forall s, sv_done (close_server s) = true.
Proof. intros [[|] [b|] reg cs pc ctx w]; reflexivity. Qed.
Lemma done_step : forall s a s', sstep s a = Some s' -> (sv_done s = true \/ a = AClose \/ a = AWatchCtx) -> sv_done s' = true.
Proof.
  intros s a s' D. destruct s as [done l reg cs pc ctx w]. sflat. intros [->|[->| ->]].
  - destruct a as [|ok| | | | | | | | | |c|c].
    1-7: destruct pc as [| |[|]| | | | | |]; cbn in D; try discriminate D; try (destruct l as [[|]|]; try discriminate D); injection D as <-; reflexivity.
    all: cbn in D.
    + injection D as <-. reflexivity.
    + destruct ctx; [discriminate D|]. injection D as <-. reflexivity.
    + destruct (w && ctx); [|discriminate D]. injection D as <-. reflexivity.
    + destruct (w && true); [|discriminate D]. injection D as <-. reflexivity.
    + destruct (nth_error cs c) as [k|]; [|discriminate D]. destruct (k_started k && negb (k_ended k)); [|discriminate D]. injection D as <-. reflexivity.
    + injection D as <-. reflexivity.
  - cbn [sstep] in D. injection D as <-. exact (close_done (mkServer done l reg cs pc ctx w)).
  - cbn [sstep] in D. destruct (w && ctx); [|discriminate D]. assert (X := close_done (mkServer done l reg cs pc ctx w)). destruct (close_server (mkServer done l reg cs pc ctx w)) as [done1 l1 reg1 cs1 pc1 ctx1 w1]. sflat. injection D as <-. exact X.
Qed.
Lemma closed_done : forall tr s, ran tr s -> In AClose tr \/ In AWatchCtx tr -> sv_done s = true.
Proof.
  intro tr. induction tr as [|a tr IH] using rev_ind; intros s R C; [destruct C as [[]|[]]|]. destruct (ran_snoc _ _ _ R) as (s0 & R0 & D). apply (done_step s0 a s D).
  destruct C as [C|C]; apply in_app_or in C as [C|[->|[]]]; auto.
Qed.
Lemma stopped_done : forall tr s, ran tr s -> late tr -> stopped tr s -> sv_done s = true /\ before (sv_listen s) = false.
Proof.
  intros tr s R L S0. assert (I := ran_sinv tr s R L). assert (D : sv_done s = true).
  { destruct S0 as [C|[C|(e & E & N)]]; [apply (closed_done tr s R); left; exact C|apply (closed_done tr s R); right; exact C|]. apply (v_returned _ _ I e E). rewrite E. destruct e as [[|]|]; try reflexivity. contradiction N. reflexivity. }
  split; [exact D|]. destruct (before (sv_listen s)) eqn:B; [|reflexivity]. destruct (v_none _ _ I B) as [_ X]. congruence.
Qed.
