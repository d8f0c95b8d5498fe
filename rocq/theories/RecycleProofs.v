(** Proofs about the buffers in which a host receives. *)
From Coq Require Import List Bool Arith Lia NArith.
From Verif Require Import Base RecycleModel RecycleSpec.
Import ListNotations.
Open Scope nat_scope.

(** ** Lists *)
Lemma upd_length : forall {A} (l : list A) i x, i < length l -> length (upd l i x) = length l.
Proof. intros A l i x L. unfold upd. rewrite app_length, firstn_length. cbn [length]. rewrite skipn_length. lia. Qed.
Lemma upd_nth : forall {A} (l : list A) i x j, i < length l -> nth_error (upd l i x) j = if j =? i then Some x else nth_error l j.
Proof.
  intros A l i x j L. unfold upd. assert (Lf : length (firstn i l) = i) by (rewrite firstn_length; lia). destruct (Nat.eqb_spec j i) as [->|N].
  - rewrite nth_error_app2 by lia. rewrite Lf, Nat.sub_diag. reflexivity.
  - destruct (Nat.lt_ge_cases j i) as [D|D].
    + rewrite nth_error_app1 by lia. rewrite <- (firstn_skipn i l) at 2. rewrite nth_error_app1 by lia. reflexivity.
    + rewrite nth_error_app2 by lia. rewrite Lf. rewrite <- (firstn_skipn (S i) l) at 2. rewrite nth_error_app2; rewrite firstn_length; [|lia]. replace (j - i) with (S (j - min (S i) (length l))) by lia. reflexivity.
Qed.
Lemma del_in : forall {A} (l : list A) i x, In x (del l i) -> In x l.
Proof. intros A l i x H. unfold del in H. apply in_app_or in H as [H|H]; [rewrite <- (firstn_skipn i l); apply in_or_app; left; exact H|rewrite <- (firstn_skipn (S i) l); apply in_or_app; right; exact H]. Qed.
Lemma del_split : forall {A} (l : list A) i x, nth_error l i = Some x -> exists l1 l2, l = l1 ++ x :: l2 /\ del l i = l1 ++ l2.
Proof.
  intros A l i x E. destruct (nth_error_split l i E) as (l1 & l2 & -> & <-). exists l1, l2. split; [reflexivity|]. unfold del.
  rewrite firstn_app, firstn_all, Nat.sub_diag. cbn [firstn]. rewrite app_nil_r. f_equal. rewrite skipn_app, skipn_all2 by lia. replace (S (length l1) - length l1) with 1 by lia. reflexivity.
Qed.
Lemma patch_length : forall l off d, off + length d <= length l -> length (patch l off d) = length l.
Proof. intros l off d L. unfold patch. rewrite !app_length, firstn_length, skipn_length. lia. Qed.
Lemma nth_upd_inv : forall {A} (l : list A) i x j y, i < length l -> nth_error (upd l i x) j = Some y -> (j = i /\ y = x) \/ (j <> i /\ nth_error l j = Some y).
Proof. intros A l i x j y L E. rewrite upd_nth in E by exact L. destruct (Nat.eqb_spec j i) as [->|N]; [left; split; congruence|right; split; assumption]. Qed.
Lemma nth_snoc : forall {A} (l : list A) x j, nth_error (l ++ [x]) j = if j =? length l then Some x else nth_error l j.
Proof.
  intros A l x j. destruct (Nat.eqb_spec j (length l)) as [->|N]; [rewrite nth_error_app2, Nat.sub_diag by lia; reflexivity|]. destruct (Nat.lt_ge_cases j (length l)) as [D|D]; [apply nth_error_app1; exact D|].
  rewrite nth_error_app2 by exact D. rewrite (proj2 (nth_error_None l j)) by lia. destruct (j - length l) as [|k] eqn:Q; [lia|]. destruct k; reflexivity.
Qed.

(** ** Buffers and arrays *)
Record ainv (arrays : list array) (bufs : list rbuf) : Prop := mkAinv {
  a_valid : forall b x a, nth_error bufs b = Some x -> b_array x = Some a -> exists y, nth_error arrays a = Some y /\ b_len x <= length (a_bytes y);
  a_inj : forall b b' x x' a, nth_error bufs b = Some x -> nth_error bufs b' = Some x' -> b_array x = Some a -> b_array x' = Some a -> b = b' }.

Lemma nth_lt : forall {A} (l : list A) i x, nth_error l i = Some x -> i < length l.
Proof. intros A l i x E. apply nth_error_Some. congruence. Qed.

(** Writing to a buffer: its contents are the bytes written, its array is marked, other buffers and other arrays are as before. *)
Lemma write_spec : forall s b d extra x, ainv (r_arrays s) (r_bufs s) -> nth_error (r_bufs s) b = Some x -> let s' := write_buf s b d extra in
  ainv (r_arrays s') (r_bufs s') /\ length (r_bufs s') = length (r_bufs s) /\ length (r_arrays s) <= length (r_arrays s') /\ contents s' b = d /\
  (exists a y, nth_error (r_bufs s') b = Some (mkBuf (Some a) (length d)) /\ nth_error (r_arrays s') a = Some y /\ a_frame y = length (r_sent s) /\ firstn (length d) (a_bytes y) = d /\
     (forall a' y', a' <> a -> nth_error (r_arrays s) a' = Some y' -> nth_error (r_arrays s') a' = Some y') /\
     (forall y', nth_error (r_arrays s) a = Some y' -> b_array x = Some a /\ length (a_bytes y) = length (a_bytes y'))) /\
  (forall b', b' <> b -> nth_error (r_bufs s') b' = nth_error (r_bufs s) b' /\ (b' < length (r_bufs s) -> contents s' b' = contents s b')) /\
  r_pool s' = r_pool s /\ r_chan s' = r_chan s /\ r_cur s' = r_cur s /\ r_views s' = r_views s /\ r_sent s' = r_sent s /\ r_handled s' = r_handled s.
Proof.
  intros s b d extra x A E s'. assert (Lb := nth_lt _ _ _ E).
  set (fresh := mkR (r_arrays s ++ [mkArray (d ++ repeat 0%N extra) (length (r_sent s))]) (upd (r_bufs s) b (mkBuf (Some (length (r_arrays s))) (length d))) (r_pool s) (r_chan s) (r_cur s) (r_views s) (r_sent s) (r_handled s)).
  assert (Cases : s' = fresh \/ exists a y, b_array x = Some a /\ nth_error (r_arrays s) a = Some y /\ length d <= length (a_bytes y) /\
    s' = mkR (upd (r_arrays s) a (mkArray (patch (a_bytes y) 0 d) (length (r_sent s)))) (upd (r_bufs s) b (mkBuf (Some a) (length d))) (r_pool s) (r_chan s) (r_cur s) (r_views s) (r_sent s) (r_handled s)).
  { unfold s', write_buf. rewrite E. destruct x as [[a|] n]; [|left; reflexivity]. destruct (nth_error (r_arrays s) a) as [y|] eqn:Ea; [|left; reflexivity]. destruct (Nat.leb_spec (length d) (length (a_bytes y))); [|left; reflexivity]. right. exists a, y. repeat split; assumption. }
  clearbody s'. destruct Cases as [->|(a & y & Xa & Ya & Ld & ->)].
  - unfold fresh. cbn [r_arrays r_bufs r_pool r_chan r_cur r_views r_sent r_handled].
    assert (Fn : forall a' y', nth_error (r_arrays s) a' = Some y' -> nth_error (r_arrays s ++ [mkArray (d ++ repeat 0%N extra) (length (r_sent s))]) a' = Some y') by (intros a' y' Q; rewrite nth_error_app1 by exact (nth_lt _ _ _ Q); exact Q).
    assert (Fl : nth_error (r_arrays s ++ [mkArray (d ++ repeat 0%N extra) (length (r_sent s))]) (length (r_arrays s)) = Some (mkArray (d ++ repeat 0%N extra) (length (r_sent s)))) by (rewrite nth_snoc, Nat.eqb_refl; reflexivity).
    assert (Fd : firstn (length d) (d ++ repeat 0%N extra) = d) by (rewrite firstn_app, firstn_all, Nat.sub_diag; cbn [firstn]; apply app_nil_r).
    split; [constructor|split; [|split; [|split; [|split; [|split; [|repeat split; reflexivity]]]]]].
    + intros b' x' a' Q1 Q2. apply nth_upd_inv in Q1 as [[-> ->]|[N Q1]]; [| |exact Lb].
      * cbn in Q2. injection Q2 as <-. eexists. split; [exact Fl|]. cbn [b_len a_bytes]. rewrite app_length. lia.
      * destruct (a_valid _ _ A b' x' a' Q1 Q2) as (y & Y1 & Y2). exists y. split; [exact (Fn _ _ Y1)|exact Y2].
    + intros b1 b2 x1 x2 a' Q1 Q2 P1 P2. apply nth_upd_inv in Q1 as [[-> ->]|[N1 Q1]]; [| |exact Lb]; (apply nth_upd_inv in Q2 as [[-> ->]|[N2 Q2]]; [| |exact Lb]); cbn in P1, P2.
      * reflexivity.
      * injection P1 as <-. destruct (a_valid _ _ A b2 x2 _ Q2 P2) as (y & Y1 & _). apply nth_lt in Y1. lia.
      * injection P2 as <-. destruct (a_valid _ _ A b1 x1 _ Q1 P1) as (y & Y1 & _). apply nth_lt in Y1. lia.
      * exact (a_inj _ _ A b1 b2 x1 x2 a' Q1 Q2 P1 P2).
    + apply upd_length. exact Lb.
    + rewrite app_length. lia.
    + unfold contents. cbn [r_arrays r_bufs]. rewrite upd_nth, Nat.eqb_refl by exact Lb. rewrite Fl. exact Fd.
    + exists (length (r_arrays s)). eexists. split; [rewrite upd_nth, Nat.eqb_refl by exact Lb; reflexivity|]. split; [exact Fl|]. split; [reflexivity|]. split; [exact Fd|]. split; [intros a' y' _ Q; exact (Fn _ _ Q)|]. intros y' Q. apply nth_lt in Q. lia.
    + intros b' N. assert (Q : nth_error (upd (r_bufs s) b (mkBuf (Some (length (r_arrays s))) (length d))) b' = nth_error (r_bufs s) b') by (rewrite upd_nth by exact Lb; destruct (Nat.eqb_spec b' b); [contradiction|reflexivity]).
      split; [exact Q|]. intros _. unfold contents. cbn [r_arrays r_bufs]. rewrite Q. destruct (nth_error (r_bufs s) b') as [[[a'|] n']|] eqn:Eb; try reflexivity. destruct (a_valid _ _ A b' _ a' Eb eq_refl) as (y & Y1 & _). rewrite Y1, (Fn _ _ Y1). reflexivity.
  - cbn [r_arrays r_bufs r_pool r_chan r_cur r_views r_sent r_handled]. assert (La := nth_lt _ _ _ Ya). assert (Lp : length (patch (a_bytes y) 0 d) = length (a_bytes y)) by (apply patch_length; exact Ld).
    assert (Fd : firstn (length d) (patch (a_bytes y) 0 d) = d) by (unfold patch; cbn [firstn app]; rewrite firstn_app, firstn_all, Nat.sub_diag; cbn [firstn]; apply app_nil_r).
    split; [constructor|split; [|split; [|split; [|split; [|split; [|repeat split; reflexivity]]]]]].
    + intros b' x' a' Q1 Q2. apply nth_upd_inv in Q1 as [[-> ->]|[N Q1]]; [| |exact Lb].
      * cbn in Q2. injection Q2 as <-. eexists. split; [rewrite upd_nth, Nat.eqb_refl by exact La; reflexivity|]. cbn [b_len a_bytes]. rewrite Lp. exact Ld.
      * destruct (a_valid _ _ A b' x' a' Q1 Q2) as (y' & Y1 & Y2). exists y'. split; [|exact Y2]. rewrite upd_nth by exact La. destruct (Nat.eqb_spec a' a) as [->|_]; [contradict N; exact (a_inj _ _ A b' b x' x a Q1 E Q2 Xa)|exact Y1].
    + intros b1 b2 x1 x2 a' Q1 Q2 P1 P2. apply nth_upd_inv in Q1 as [[-> ->]|[N1 Q1]]; [| |exact Lb]; (apply nth_upd_inv in Q2 as [[-> ->]|[N2 Q2]]; [| |exact Lb]); cbn in P1, P2.
      * reflexivity.
      * injection P1 as <-. exact (a_inj _ _ A b b2 x x2 a E Q2 Xa P2).
      * injection P2 as <-. exact (a_inj _ _ A b1 b x1 x a Q1 E P1 Xa).
      * exact (a_inj _ _ A b1 b2 x1 x2 a' Q1 Q2 P1 P2).
    + apply upd_length. exact Lb.
    + rewrite upd_length by exact La. lia.
    + unfold contents. cbn [r_arrays r_bufs]. rewrite upd_nth, Nat.eqb_refl by exact Lb. rewrite upd_nth, Nat.eqb_refl by exact La. exact Fd.
    + exists a. eexists. split; [rewrite upd_nth, Nat.eqb_refl by exact Lb; reflexivity|]. split; [rewrite upd_nth, Nat.eqb_refl by exact La; reflexivity|]. split; [reflexivity|]. split; [exact Fd|]. split.
      * intros a' y' N Q. rewrite upd_nth by exact La. destruct (Nat.eqb_spec a' a); [contradiction|exact Q].
      * intros y' Q. split; [exact Xa|]. cbn [a_bytes]. rewrite Lp. congruence.
    + intros b' N. assert (Q : nth_error (upd (r_bufs s) b (mkBuf (Some a) (length d))) b' = nth_error (r_bufs s) b') by (rewrite upd_nth by exact Lb; destruct (Nat.eqb_spec b' b); [contradiction|reflexivity]).
      split; [exact Q|]. intros _. unfold contents. cbn [r_arrays r_bufs]. rewrite Q. destruct (nth_error (r_bufs s) b') as [[[a'|] n']|] eqn:Eb; try reflexivity. rewrite upd_nth by exact La.
      destruct (Nat.eqb_spec a' a) as [->|_]; [contradict N; exact (a_inj _ _ A b' b _ x a Eb E eq_refl Xa)|reflexivity].
Qed.

(** ** Who owns which buffer *)
Definition owned (s : rstate) : list nat := r_pool s ++ r_chan s ++ (match r_cur s with Some b => [b] | None => [] end).
(** The view's place, and its frame. *)
Definition placed (s : rstate) (w : view) : Prop :=
  exists y, nth_error (r_arrays s) (v_array w) = Some y /\ v_off w + v_len w <= length (a_bytes y) /\ v_frame w <= a_frame y.

Record rinv (s : rstate) : Prop := mkRinv {
  o_nodup : NoDup (owned s);
  o_valid : forall b, In b (owned s) -> b < length (r_bufs s);
  o_arrays : ainv (r_arrays s) (r_bufs s);
  o_sent : r_sent s = r_handled s ++ map (contents s) (r_chan s);
  o_frames : forall a y, nth_error (r_arrays s) a = Some y -> a_frame y < length (r_sent s);
  o_cur : forall b, r_cur s = Some b -> exists a n y, nth_error (r_bufs s) b = Some (mkBuf (Some a) n) /\ nth_error (r_arrays s) a = Some y /\ S (a_frame y) = length (r_handled s);
  o_chan : forall i b, nth_error (r_chan s) i = Some b -> exists a n y, nth_error (r_bufs s) b = Some (mkBuf (Some a) n) /\ nth_error (r_arrays s) a = Some y /\ a_frame y = length (r_handled s) + i;
  o_views : forall w, In w (r_views s) -> placed s w /\ v_frame w < length (r_handled s);
  o_current : forall w b, In w (r_views s) -> r_cur s = Some b -> S (v_frame w) = length (r_handled s) -> exists n, nth_error (r_bufs s) b = Some (mkBuf (Some (v_array w)) n) }.

Ltac rflat := cbn [r_arrays r_bufs r_pool r_chan r_cur r_views r_sent r_handled] in *.

Lemma get_spec : forall s pick s1 b, rinv s -> get_buf s pick = Some (s1, b) ->
  rinv s1 /\ ~ In b (owned s1) /\ (exists x, nth_error (r_bufs s1) b = Some x) /\ r_arrays s1 = r_arrays s /\ r_chan s1 = r_chan s /\ r_cur s1 = r_cur s /\ r_views s1 = r_views s /\ r_sent s1 = r_sent s /\ r_handled s1 = r_handled s /\
  (forall c, c < length (r_bufs s) -> contents s1 c = contents s c).
Proof.
  intros s pick s1 b I E. destruct I as [I1 I2 I3 I4 I5 I6 I7 I8 I9]. unfold get_buf in E. destruct pick as [i|].
  - destruct (nth_error (r_pool s) i) as [b0|] eqn:Ep; [|discriminate E]. injection E as <- <-. destruct (del_split _ _ _ Ep) as (l1 & l2 & P1 & P2).
    assert (Hn : NoDup ((l1 ++ l2) ++ r_chan s ++ (match r_cur s with Some b => [b] | None => [] end)) /\ ~ In b0 ((l1 ++ l2) ++ r_chan s ++ (match r_cur s with Some b => [b] | None => [] end))).
    { unfold owned in I1. rewrite P1, <- !app_assoc in I1. cbn [app] in I1. apply NoDup_remove in I1. rewrite <- app_assoc. exact I1. }
    assert (Hi : forall c, In c ((l1 ++ l2) ++ r_chan s ++ (match r_cur s with Some b => [b] | None => [] end)) -> In c (owned s)).
    { intros c Hc. unfold owned. rewrite P1. rewrite <- app_assoc in *. apply in_app_or in Hc as [Hc|Hc]; [apply in_or_app; left; exact Hc|apply in_or_app; right; right; exact Hc]. }
    split; [constructor; unfold owned; rflat; try assumption|].
    + rewrite P2. exact (proj1 Hn).
    + intros c Hc. rewrite P2 in Hc. exact (I2 c (Hi c Hc)).
    + unfold owned. rflat. split; [rewrite P2; exact (proj2 Hn)|]. split; [|repeat split; reflexivity]. assert (Lb : b0 < length (r_bufs s)) by (apply I2; unfold owned; rewrite P1; apply in_or_app; left; apply in_or_app; right; left; reflexivity).
      destruct (nth_error (r_bufs s) b0) as [x|] eqn:Eb; [exists x; reflexivity|]. apply nth_error_None in Eb. lia.
  - injection E as <- <-. set (bufs' := r_bufs s ++ [mkBuf None 0]).
    assert (Nb : forall c, c < length (r_bufs s) -> nth_error bufs' c = nth_error (r_bufs s) c) by (intros c Lc; apply nth_error_app1; exact Lc).
    assert (Nb' : forall c x, nth_error (r_bufs s) c = Some x -> nth_error bufs' c = Some x) by (intros c x Q; rewrite Nb by exact (nth_lt _ _ _ Q); exact Q).
    assert (Na : forall c x a, nth_error bufs' c = Some x -> b_array x = Some a -> nth_error (r_bufs s) c = Some x).
    { intros c x a Q P. unfold bufs' in Q. rewrite nth_snoc in Q. destruct (c =? length (r_bufs s)); [injection Q as <-; discriminate P|exact Q]. }
    assert (Ct : forall c, c < length (r_bufs s) -> contents (mkR (r_arrays s) bufs' (r_pool s) (r_chan s) (r_cur s) (r_views s) (r_sent s) (r_handled s)) c = contents s c) by (intros c Lc; unfold contents; rflat; rewrite Nb by exact Lc; reflexivity).
    split; [constructor; unfold owned; rflat; try assumption|].
    + intros c Hc. unfold bufs'. rewrite app_length. specialize (I2 c Hc). lia.
    + constructor; [intros c x a Q P; exact (a_valid _ _ I3 c x a (Na c x a Q P) P)|intros c c' x x' a Q Q' P P'; exact (a_inj _ _ I3 c c' x x' a (Na c x a Q P) (Na c' x' a Q' P') P P')].
    + rewrite I4. f_equal. apply map_ext_in. intros c Hc. symmetry. apply Ct. apply I2. unfold owned. apply in_or_app. right. apply in_or_app. left. exact Hc.
    + intros c Hc. destruct (I6 c Hc) as (a & n & y & Q1 & Q2 & Q3). exists a, n, y. split; [exact (Nb' _ _ Q1)|split; assumption].
    + intros i c Hc. destruct (I7 i c Hc) as (a & n & y & Q1 & Q2 & Q3). exists a, n, y. split; [exact (Nb' _ _ Q1)|split; assumption].
    + intros w c Hw Hc Hf. destruct (I9 w c Hw Hc Hf) as [n Q]. exists n. exact (Nb' _ _ Q).
    + split; [intro X; unfold owned in X; rflat; specialize (I2 _ X); lia|]. split; [exists (mkBuf None 0); rflat; unfold bufs'; rewrite nth_snoc, Nat.eqb_refl; reflexivity|]. repeat split; try reflexivity. exact Ct.
Qed.

Lemma rinv_send : forall s d pick extra s', rinv s -> rstep s (RSend d pick extra) = Some s' -> rinv s'.
Proof.
  intros s0 d pick extra s' I0 D. cbn [rstep] in D. destruct (get_buf s0 pick) as [[s b]|] eqn:G; [|discriminate D]. destruct (get_spec s0 pick s b I0 G) as (I & Nb & (x & Ex) & _). clear I0 G s0.
  destruct (write_spec s b d extra x (o_arrays _ I) Ex) as (A' & Lb & La & Cb & (a & y & B1 & B2 & B3 & B4 & B5 & B6) & Ob & W1 & W2 & W3 & W4 & W5 & W6). set (s2 := write_buf s b d extra) in *. injection D as <-.
  destruct I as [I1 I2 I3 I4 I5 I6 I7 I8 I9].
  assert (Own : forall c, In c (owned s) -> c <> b) by (intros c Hc ->; exact (Nb Hc)).
  assert (Oc : forall c, In c (r_chan s) -> In c (owned s)) by (intros c Hc; unfold owned; apply in_or_app; right; apply in_or_app; left; exact Hc).
  assert (Ou : forall c, r_cur s = Some c -> In c (owned s)) by (intros c Hc; unfold owned; apply in_or_app; right; apply in_or_app; right; rewrite Hc; left; reflexivity).
  assert (Aw : forall c a' n y', In c (owned s) -> nth_error (r_bufs s) c = Some (mkBuf (Some a') n) -> nth_error (r_arrays s) a' = Some y' -> nth_error (r_bufs s2) c = Some (mkBuf (Some a') n) /\ nth_error (r_arrays s2) a' = Some y').
  { intros c a' n y' Hc Q1 Q2. destruct (Ob c (Own c Hc)) as [Q _]. rewrite Q. split; [exact Q1|]. apply B5; [|exact Q2]. intros ->. destruct (B6 _ Q2) as [Xa _]. apply (Own c Hc). exact (a_inj _ _ I3 c b _ x a Q1 Ex eq_refl Xa). }
  constructor; unfold owned; rflat; rewrite ?W1, ?W2, ?W3, ?W4, ?W5, ?W6 in *.
  - unfold owned in I1, Nb. rewrite <- app_assoc. cbn [app]. rewrite app_assoc. apply NoDup_Add with (a := b) (l := (r_pool s ++ r_chan s) ++ match r_cur s with Some b => [b] | None => [] end); [apply Add_app|]. rewrite <- app_assoc. split; assumption.
  - intros c Hc. rewrite Lb. assert (X : c = b \/ In c (owned s)). { unfold owned. rewrite !in_app_iff in *. cbn [In] in Hc. intuition auto. } destruct X as [->|X]; [exact (nth_lt _ _ _ Ex)|exact (I2 c X)].
  - exact A'.
  - rewrite I4, map_app. cbn [map]. rewrite <- app_assoc. f_equal. f_equal.
    + apply map_ext_in. intros c Hc. destruct (Ob c (Own c (Oc c Hc))) as [_ Q]. specialize (Q (I2 c (Oc c Hc))). unfold contents in *. rflat. symmetry. exact Q.
    + f_equal. unfold contents in *. rflat. symmetry. exact Cb.
  - intros a' y' Q. rewrite app_length. cbn [length]. destruct (Nat.eq_dec a' a) as [->|N]; [assert (y' = y) as -> by congruence; lia|].
    destruct (nth_error (r_arrays s) a') as [z|] eqn:Z; [assert (Z' := B5 a' z N Z); assert (y' = z) as -> by congruence; specialize (I5 a' z Z); lia|].
    (* no array of this number before: it can only be the new one *)
    exfalso. apply nth_error_None in Z. assert (Fr : r_arrays s2 = r_arrays s ++ [mkArray (d ++ repeat 0%N extra) (length (r_sent s))] \/ length (r_arrays s2) = length (r_arrays s)).
    { unfold s2, write_buf. rewrite Ex. destruct x as [[a0|] n0]; [|left; reflexivity]. destruct (nth_error (r_arrays s) a0) as [z0|] eqn:Z0; [|left; reflexivity]. destruct (length d <=? length (a_bytes z0)); [|left; reflexivity]. right. cbn [r_arrays]. apply upd_length. exact (nth_lt _ _ _ Z0). }
    assert (La' := nth_lt _ _ _ Q). destruct Fr as [Fr|Fr]; [|lia]. rewrite Fr, app_length in La'. cbn [length] in La'.
    assert (a' = length (r_arrays s)) by lia. subst a'. destruct (Nat.lt_ge_cases a (length (r_arrays s))) as [X|X]; [|assert (Y := nth_lt _ _ _ B2); rewrite Fr, app_length in Y; cbn [length] in Y; lia].
    destruct (nth_error (r_arrays s) a) as [z|] eqn:Za; [|apply nth_error_None in Za; lia]. destruct (B6 z eq_refl) as [Xa _].
    assert (Y : nth_error (r_bufs s2) b = Some (mkBuf (Some (length (r_arrays s))) (length d))).
    { revert Fr. unfold s2, write_buf. rewrite Ex. destruct x as [xa xn]. cbn in Xa. subst xa. rewrite Za. destruct (length d <=? length (a_bytes z)); cbn [r_arrays r_bufs]; intro Fr; [|rewrite upd_nth, Nat.eqb_refl by exact (nth_lt _ _ _ Ex); reflexivity].
      apply (f_equal (@length _)) in Fr. rewrite upd_length, app_length in Fr by exact X. cbn [length] in Fr. lia. }
    rewrite Y in B1. injection B1 as B1. lia.
  - intros c Hc. destruct (I6 c Hc) as (a' & n & y' & Q1 & Q2 & Q3). destruct (Aw c a' n y' (Ou c Hc) Q1 Q2) as [R1 R2]. exists a', n, y'. split; [exact R1|split; assumption].
  - intros i c Hc. rewrite nth_snoc in Hc. destruct (Nat.eqb_spec i (length (r_chan s))) as [->|N].
    + injection Hc as <-. exists a, (length d), y. split; [exact B1|]. split; [exact B2|]. rewrite B3, I4, app_length, map_length. reflexivity.
    + destruct (I7 i c Hc) as (a' & n & y' & Q1 & Q2 & Q3). destruct (Aw c a' n y' (Oc c (nth_error_In _ _ Hc)) Q1 Q2) as [R1 R2]. exists a', n, y'. split; [exact R1|split; assumption].
  - intros w Hw. destruct (I8 w Hw) as [(z & Z1 & Z2 & Z3) Z4]. split; [|exact Z4]. unfold placed. rflat. destruct (Nat.eq_dec (v_array w) a) as [Q|N].
    + exists y. rewrite Q in *. split; [exact B2|]. destruct (B6 z Z1) as [_ Lz]. rewrite Lz. split; [exact Z2|]. rewrite B3. rewrite I4, app_length. lia.
    + exists z. split; [exact (B5 _ _ N Z1)|]. split; assumption.
  - intros w c Hw Hc Hf. destruct (I9 w c Hw Hc Hf) as [n Q]. exists n. destruct (I8 w Hw) as [(z & Z1 & _) _]. exact (proj1 (Aw c _ n z (Ou c Hc) Q Z1)).
Qed.

Lemma rinv_take : forall s s', rinv s -> rstep s RTake = Some s' -> rinv s'.
Proof.
  intros s s' [I1 I2 I3 I4 I5 I6 I7 I8 I9] D. cbn [rstep] in D. destruct (r_cur s) as [b0|] eqn:Ec; [discriminate D|]. destruct (r_chan s) as [|b q] eqn:Eq; [discriminate D|]. injection D as <-.
  constructor; unfold owned in *; rflat; rewrite ?Eq, ?Ec in *; try assumption.
  - rewrite app_nil_r in I1. apply NoDup_Add with (a := b) (l := r_pool s ++ q); [rewrite <- (app_nil_r (q ++ [b])), <- app_assoc, app_assoc; cbn [app]; rewrite <- (app_nil_r (r_pool s ++ q)) at 1; apply Add_app|]. apply NoDup_remove in I1. exact I1.
  - intros c Hc. apply I2. rewrite app_nil_r. rewrite !in_app_iff in *. cbn [In] in *. tauto.
  - rewrite I4, <- app_assoc. reflexivity.
  - intros c Hc. injection Hc as <-. destruct (I7 0 b eq_refl) as (a & n & y & Q1 & Q2 & Q3). exists a, n, y. split; [exact Q1|]. split; [exact Q2|]. rewrite app_length. cbn [length]. lia.
  - intros i c Hc. destruct (I7 (S i) c Hc) as (a & n & y & Q1 & Q2 & Q3). exists a, n, y. split; [exact Q1|]. split; [exact Q2|]. rewrite app_length. cbn [length]. lia.
  - intros w Hw. destruct (I8 w Hw) as [A B]. split; [exact A|]. rewrite app_length. lia.
  - intros w c Hw _ Hf. destruct (I8 w Hw) as [_ B]. rewrite app_length in Hf. cbn [length] in Hf. lia.
Qed.
Lemma rinv_deliver : forall s off n s', rinv s -> rstep s (RDeliver off n) = Some s' -> rinv s'.
Proof.
  intros s off n s' [I1 I2 I3 I4 I5 I6 I7 I8 I9] D. cbn [rstep] in D. destruct (r_cur s) as [b|] eqn:Ec; [|discriminate D]. destruct (nth_error (r_bufs s) b) as [[[a|] m]|] eqn:Eb; try discriminate D. destruct (Nat.leb_spec (off + n) m) as [L|L]; [|discriminate D]. injection D as <-.
  destruct (I6 b eq_refl) as (a' & n' & y & Q1 & Q2 & Q3). rewrite Eb in Q1. injection Q1 as <- <-. destruct (a_valid _ _ I3 b _ a Eb eq_refl) as (y' & Y1 & Y2). cbn in Y2. assert (y' = y) as -> by congruence.
  constructor; unfold owned in *; rflat; rewrite ?Ec in *; try assumption.
  - intros w Hw. apply in_app_or in Hw as [Hw|[<-|[]]]; [exact (I8 w Hw)|]. split; [|cbn; lia]. exists y. cbn. split; [exact Q2|]. split; lia.
  - intros w c Hw Hc Hf. injection Hc as <-. apply in_app_or in Hw as [Hw|[<-|[]]]; [exact (I9 w b Hw eq_refl Hf)|]. exists m. exact Eb.
Qed.
Lemma rinv_done : forall s s', rinv s -> rstep s RDone = Some s' -> rinv s'.
Proof.
  intros s s' [I1 I2 I3 I4 I5 I6 I7 I8 I9] D. cbn [rstep] in D. destruct (r_cur s) as [b|] eqn:Ec; [|discriminate D]. destruct (I6 b eq_refl) as (a & n & y & Q1 & Q2 & Q3). rewrite Q1 in D. cbn [b_array] in D. injection D as <-. assert (Lb := nth_lt _ _ _ Q1).
  assert (Nc : forall c, In c (r_chan s) -> c <> b). { intros c Hc ->. unfold owned in I1. rewrite Ec in I1. rewrite app_assoc in I1. apply NoDup_remove_2 in I1. apply I1. rewrite app_nil_r. apply in_or_app. right. exact Hc. }
  assert (Nb : forall c, c <> b -> nth_error (upd (r_bufs s) b (mkBuf (Some a) 0)) c = nth_error (r_bufs s) c) by (intros c N; rewrite upd_nth by exact Lb; destruct (Nat.eqb_spec c b); [contradiction|reflexivity]).
  constructor; unfold owned in *; rflat; rewrite ?Ec in *; try assumption; try discriminate.
  - rewrite app_nil_r, <- app_assoc. cbn [app]. apply NoDup_Add with (a := b) (l := r_pool s ++ r_chan s); [apply Add_app|]. rewrite app_assoc in I1. apply NoDup_remove in I1. rewrite app_nil_r in I1. exact I1.
  - intros c Hc. rewrite upd_length by exact Lb. apply I2. rewrite !in_app_iff in *. cbn [In] in *. tauto.
  - constructor.
    + intros c x a' P1 P2. apply nth_upd_inv in P1 as [[-> ->]|[N P1]]; [| |exact Lb]; [cbn in P2; injection P2 as <-; exists y; split; [exact Q2|cbn; lia]|exact (a_valid _ _ I3 c x a' P1 P2)].
    + intros c c' x x' a' P1 P1' P2 P2'. apply nth_upd_inv in P1 as [[-> ->]|[N P1]]; [| |exact Lb]; (apply nth_upd_inv in P1' as [[-> ->]|[N' P1']]; [| |exact Lb]).
      * reflexivity.
      * exact (a_inj _ _ I3 b c' _ x' a' Q1 P1' P2 P2').
      * exact (a_inj _ _ I3 c b x _ a' P1 Q1 P2 P2').
      * exact (a_inj _ _ I3 c c' x x' a' P1 P1' P2 P2').
  - rewrite I4. f_equal. apply map_ext_in. intros c Hc. unfold contents. rflat. rewrite (Nb c (Nc c Hc)). reflexivity.
  - intros i c Hc. destruct (I7 i c Hc) as (a' & n' & y' & P1 & P2 & P3). exists a', n', y'. split; [rewrite (Nb c (Nc c (nth_error_In _ _ Hc))); exact P1|split; assumption].
Qed.
Lemma rinv_drop : forall s i s', rinv s -> rstep s (RDrop i) = Some s' -> rinv s'.
Proof.
  intros s i s' [I1 I2 I3 I4 I5 I6 I7 I8 I9] D. cbn [rstep] in D. destruct (nth_error (r_pool s) i) as [b|] eqn:Ep; [|discriminate D]. injection D as <-. destruct (del_split _ _ _ Ep) as (l1 & l2 & P1 & P2).
  constructor; unfold owned in *; rflat; try assumption.
  - rewrite P2. rewrite P1, <- !app_assoc in I1. cbn [app] in I1. apply NoDup_remove_1 in I1. rewrite <- app_assoc. exact I1.
  - intros c Hc. apply I2. apply in_app_or in Hc as [Hc|Hc]; apply in_or_app; [left; exact (del_in _ _ _ Hc)|right; exact Hc].
Qed.
Lemma rinv_poke : forall s v off d w s', rinv s -> nth_error (r_views s) v = Some w -> current s w -> rstep s (RPoke v off d) = Some s' -> rinv s'.
Proof.
  intros s v off d w s' [I1 I2 I3 I4 I5 I6 I7 I8 I9] Ev [C1 C2] D. cbn [rstep] in D. rewrite Ev in D. destruct (Nat.leb_spec (off + length d) (v_len w)) as [L|L]; [|discriminate D]. destruct (nth_error (r_arrays s) (v_array w)) as [y|] eqn:Ey; [|discriminate D]. injection D as <-.
  destruct (r_cur s) as [b|] eqn:Ec; [|contradiction C1; reflexivity]. destruct (I9 w b (nth_error_In _ _ Ev) eq_refl C2) as [n Eb]. destruct (I8 w (nth_error_In _ _ Ev)) as [(y' & Y1 & Y2 & Y3) _]. assert (y' = y) as -> by congruence.
  assert (La := nth_lt _ _ _ Ey). assert (Lp : length (patch (a_bytes y) (v_off w + off) d) = length (a_bytes y)) by (apply patch_length; lia).
  assert (Nc : forall c, In c (r_chan s) -> c <> b). { intros c Hc ->. unfold owned in I1. rewrite Ec in I1. rewrite app_assoc in I1. apply NoDup_remove_2 in I1. apply I1. rewrite app_nil_r. apply in_or_app. right. exact Hc. }
  set (y' := mkArray (patch (a_bytes y) (v_off w + off) d) (a_frame y)).
  assert (An : forall a z, nth_error (r_arrays s) a = Some z -> exists z', nth_error (upd (r_arrays s) (v_array w) y') a = Some z' /\ length (a_bytes z') = length (a_bytes z) /\ a_frame z' = a_frame z).
  { intros a z Q. rewrite upd_nth by exact La. destruct (Nat.eqb_spec a (v_array w)) as [->|N]; [|exists z; repeat split; exact Q]. exists y'. assert (z = y) as -> by congruence. split; [reflexivity|split; [exact Lp|reflexivity]]. }
  assert (Bn : forall a z', nth_error (upd (r_arrays s) (v_array w) y') a = Some z' -> exists z, nth_error (r_arrays s) a = Some z /\ a_frame z' = a_frame z).
  { intros a z' Q. rewrite upd_nth in Q by exact La. destruct (Nat.eqb_spec a (v_array w)) as [->|N]; [injection Q as <-; exists y; split; [exact Ey|reflexivity]|exists z'; split; [exact Q|reflexivity]]. }
  constructor; unfold owned in *; rflat; rewrite ?Ec in *; try assumption.
  - constructor; [|exact (a_inj _ _ I3)]. intros c x a P1 P2. destruct (a_valid _ _ I3 c x a P1 P2) as (z & Z1 & Z2). destruct (An a z Z1) as (z' & Z1' & Z2' & _). exists z'. split; [exact Z1'|lia].
  - rewrite I4. f_equal. apply map_ext_in. intros c Hc. unfold contents. rflat. destruct (nth_error (r_bufs s) c) as [[[a|] m]|] eqn:Q; try reflexivity. rewrite upd_nth by exact La. destruct (Nat.eqb_spec a (v_array w)) as [->|N]; [|reflexivity].
    contradiction (Nc c Hc). exact (a_inj _ _ I3 c b _ _ _ Q Eb eq_refl eq_refl).
  - intros a z' Q. destruct (Bn a z' Q) as (z & Z1 & ->). exact (I5 a z Z1).
  - intros c Hc. destruct (I6 c Hc) as (a & m & z & P1 & P2 & P3). destruct (An a z P2) as (z' & Z1' & _ & Z3'). exists a, m, z'. split; [exact P1|]. split; [exact Z1'|]. lia.
  - intros i c Hc. destruct (I7 i c Hc) as (a & m & z & P1 & P2 & P3). destruct (An a z P2) as (z' & Z1' & _ & Z3'). exists a, m, z'. split; [exact P1|]. split; [exact Z1'|]. lia.
  - intros w' Hw. destruct (I8 w' Hw) as [(z & Z1 & Z2 & Z3) Z4]. split; [|exact Z4]. destruct (An _ z Z1) as (z' & Z1' & Z2' & Z3'). exists z'. rflat. split; [exact Z1'|]. split; lia.
Qed.

Lemma recycled_snoc : forall l a s, recycled (l ++ [a]) s -> exists s0, recycled l s0 /\ rstep s0 a = Some s.
Proof.
  intros l a s. unfold recycled. generalize r_new. induction l as [|b l IH]; intros s1 R; cbn [app rruns] in *; [exists s1; split; [reflexivity|]; destruct (rstep s1 a) as [s2|]; [exact R|discriminate R]|]. destruct (rstep s1 b) as [s2|]; [exact (IH s2 R)|discriminate R].
Qed.
Lemma rinv_new : rinv r_new.
Proof.
  constructor; cbn; try discriminate; try contradiction; try reflexivity; try (intros; contradiction).
  - constructor.
  - constructor; intros b; destruct b; discriminate.
  - intros a y E. destruct a; discriminate E.
  - intros i b E. destruct i; discriminate E.
Qed.
Lemma timely_snoc : forall l a, timely (l ++ [a]) -> timely l.
Proof. intros l a T pre v off d post s w E. apply (T pre v off d (post ++ [a]) s w). rewrite E, <- app_assoc. reflexivity. Qed.
Lemma recycled_rinv : forall l s, recycled l s -> timely l -> rinv s.
Proof.
  intro l. induction l as [|a l IH] using rev_ind; intros s R T.
  - unfold recycled in R. cbn in R. assert (r_new = s) as <- by congruence. exact rinv_new.
  - destruct (recycled_snoc _ _ _ R) as (s0 & R0 & D). assert (I := IH s0 R0 (timely_snoc l a T)). destruct a as [d pick extra| |off n| |i|v off d].
    + exact (rinv_send s0 d pick extra s I D).
    + exact (rinv_take s0 s I D).
    + exact (rinv_deliver s0 off n s I D).
    + exact (rinv_done s0 s I D).
    + exact (rinv_drop s0 i s I D).
    + assert (D' := D). cbn [rstep] in D. destruct (nth_error (r_views s0) v) as [w|] eqn:Ev; [|discriminate D]. exact (rinv_poke s0 v off d w s I Ev (T l v off d [] s0 w eq_refl R0 Ev) D').
Qed.

(** ** If nobody writes to slices *)
Record cinv (s : rstate) : Prop := mkCinv {
  c_cur : forall b, r_cur s = Some b -> exists h, r_handled s = h ++ [contents s b];
  c_views : forall w, In w (r_views s) -> exists d, nth_error (r_sent s) (v_frame w) = Some d /\ v_off w + v_len w <= length d /\ v_bytes w = slice d (v_off w) (v_len w);
  c_arrays : forall a y, nth_error (r_arrays s) a = Some y -> exists d, nth_error (r_sent s) (a_frame y) = Some d /\ firstn (length d) (a_bytes y) = d }.

Lemma slice_firstn : forall l n off k, off + k <= n -> slice (firstn n l) off k = slice l off k.
Proof. intros l n off k L. unfold slice. rewrite skipn_firstn_comm, firstn_firstn. f_equal. lia. Qed.

Lemma cinv_step : forall s a s', rinv s -> cinv s -> (forall v off d, a <> RPoke v off d) -> rstep s a = Some s' -> cinv s'.
Proof.
  intros s a s' I C N D. destruct a as [d pick extra| |off n| |i|v off d].
  - cbn [rstep] in D. destruct (get_buf s pick) as [[s1 b]|] eqn:G; [|discriminate D]. destruct (get_spec s pick s1 b I G) as (I1 & Nb & (x & Ex) & G1 & G2 & G3 & G4 & G5 & G6 & G7).
    destruct (write_spec s1 b d extra x (o_arrays _ I1) Ex) as (A' & Lb & La & Cb & (a & y & B1 & B2 & B3 & B4 & B5 & B6) & Ob & W1 & W2 & W3 & W4 & W5 & W6). assert (I' := rinv_send s d pick extra s' I). cbn [rstep] in I'. rewrite G in I'. specialize (I' D). set (s2 := write_buf s1 b d extra) in *.
    assert (Old : forall a' y', a' <> a -> nth_error (r_arrays s2) a' = Some y' -> nth_error (r_arrays s1) a' = Some y').
    { intros a' y' Na Q. destruct (nth_error (r_arrays s1) a') as [z|] eqn:Z; [rewrite (B5 a' z Na Z) in Q; exact Q|exfalso]. apply nth_error_None in Z. assert (La' := nth_lt _ _ _ Q).
      assert (Fr : (length (r_arrays s2) = S (length (r_arrays s1)) /\ nth_error (r_bufs s2) b = Some (mkBuf (Some (length (r_arrays s1))) (length d))) \/ length (r_arrays s2) = length (r_arrays s1)).
      { unfold s2, write_buf. rewrite Ex. assert (Lx := nth_lt _ _ _ Ex). destruct x as [[a0|] n0]; [destruct (nth_error (r_arrays s1) a0) as [z0|] eqn:Z0; [destruct (length d <=? length (a_bytes z0)); [right; cbn [r_arrays]; apply upd_length; exact (nth_lt _ _ _ Z0)|]|]|];
          left; cbn [r_arrays r_bufs]; (split; [rewrite app_length; cbn [length]; lia|rewrite upd_nth, Nat.eqb_refl by exact Lx; reflexivity]). }
      destruct Fr as [[Fr Fb]|Fr]; [|lia]. rewrite Fb in B1. injection B1 as B1. lia. }
    injection D as <-. destruct C as [C1 C2 C3]. constructor; rflat; rewrite ?W1, ?W2, ?W3, ?W4, ?W5, ?W6, ?G1, ?G2, ?G3, ?G4, ?G5, ?G6 in *.
    + intros c Hc. destruct (C1 c Hc) as [h Q]. exists h. rewrite Q. do 2 f_equal.
      assert (Oc : In c (owned s1)) by (unfold owned; rewrite G3, Hc; apply in_or_app; right; apply in_or_app; right; left; reflexivity). assert (Ocs : In c (owned s)) by (unfold owned; rewrite Hc; apply in_or_app; right; apply in_or_app; right; left; reflexivity).
      assert (Ncb : c <> b) by (intros ->; exact (Nb Oc)). destruct (Ob c Ncb) as [_ Q']. specialize (Q' (o_valid _ I1 c Oc)). unfold contents in *. rflat. rewrite Q'. symmetry. exact (G7 c (o_valid _ I c Ocs)).
    + intros w Hw. destruct (C2 w Hw) as (d0 & Q1 & Q2). exists d0. split; [|exact Q2]. rewrite nth_error_app1 by exact (nth_lt _ _ _ Q1). exact Q1.
    + intros a' y' Q. destruct (Nat.eq_dec a' a) as [->|Na].
      * assert (y' = y) as -> by congruence. exists d. rewrite B3, nth_snoc, Nat.eqb_refl. split; [reflexivity|exact B4].
      * destruct (C3 a' y' (Old a' y' Na Q)) as (d0 & Q1 & Q2). exists d0. split; [|exact Q2]. rewrite nth_error_app1 by exact (nth_lt _ _ _ Q1). exact Q1.
  - cbn [rstep] in D. destruct (r_cur s) as [b0|] eqn:Ec; [discriminate D|]. destruct (r_chan s) as [|b q] eqn:Eq; [discriminate D|]. injection D as <-. destruct C as [C1 C2 C3]. constructor; rflat; try assumption.
    intros c Hc. injection Hc as <-. exists (r_handled s). reflexivity.
  - cbn [rstep] in D. destruct (r_cur s) as [b|] eqn:Ec; [|discriminate D]. destruct (nth_error (r_bufs s) b) as [[[a|] m]|] eqn:Eb; try discriminate D. destruct (Nat.leb_spec (off + n) m) as [L|L]; [|discriminate D]. injection D as <-. destruct C as [C1 C2 C3].
    constructor; rflat; [rewrite <- Ec; exact C1| |exact C3]. intros w Hw. apply in_app_or in Hw as [Hw|[<-|[]]]; [exact (C2 w Hw)|]. cbn [v_frame v_off v_len v_bytes]. destruct (C1 b Ec) as [h Q]. exists (contents s b). rewrite (o_sent _ I), Q. split; [|split; [|reflexivity]].
    + rewrite app_length. cbn [length]. replace (length h + 1 - 1) with (length h) by lia. rewrite <- app_assoc. rewrite nth_error_app2, Nat.sub_diag by lia. reflexivity.
    + unfold contents. rewrite Eb. destruct (a_valid _ _ (o_arrays _ I) b _ a Eb eq_refl) as (y & Y1 & Y2). cbn in Y2. rewrite Y1, firstn_length. lia.
  - cbn [rstep] in D. destruct (r_cur s) as [b|] eqn:Ec; [|discriminate D]. injection D as <-. destruct C as [C1 C2 C3]. constructor; rflat; try assumption; discriminate.
  - cbn [rstep] in D. destruct (nth_error (r_pool s) i) as [b|] eqn:Ep; [|discriminate D]. injection D as <-. destruct C as [C1 C2 C3]. constructor; rflat; assumption.
  - contradiction (N v off d). reflexivity.
Qed.
Lemma no_pokes_timely : forall l, no_pokes l -> timely l.
Proof. intros l N pre v off d post s w E. contradiction (N v off d). rewrite E. apply in_or_app. right. left. reflexivity. Qed.
Lemma no_pokes_snoc : forall l a, no_pokes (l ++ [a]) -> no_pokes l /\ forall v off d, a <> RPoke v off d.
Proof. intros l a N. split; [intros v off d X; apply (N v off d), in_or_app; left; exact X|intros v off d ->; apply (N v off d), in_or_app; right; left; reflexivity]. Qed.
Lemma recycled_cinv : forall l s, recycled l s -> no_pokes l -> cinv s.
Proof.
  intro l. induction l as [|a l IH] using rev_ind; intros s R N.
  - unfold recycled in R. cbn in R. assert (r_new = s) as <- by congruence. constructor; cbn; try discriminate; try contradiction. intros a y E. destruct a; discriminate E.
  - destruct (recycled_snoc _ _ _ R) as (s0 & R0 & D). destruct (no_pokes_snoc _ _ N) as [N0 Na]. exact (cinv_step s0 a s (recycled_rinv l s0 R0 (no_pokes_timely l N0)) (IH s0 R0 N0) Na D).
Qed.
