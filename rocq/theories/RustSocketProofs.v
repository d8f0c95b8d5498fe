(** Proofs about [RustSocketModel] against [RustSocketSpec]. *)
From Coq Require Import List NArith ZArith Lia Bool ZifyBool ZifyNat ZifyN.
From Verif Require Import Base ProxyModel RustFramesModel RustSocketModel RustSocketSpec.
From Verif Require RustCallModel RustStreamModel.
Import ListNotations.
Open Scope N_scope.

(** ** Lists and maps *)

Lemma put_cons : forall A (y : A) l i x, put (y :: l) (S i) x = y :: put l i x.
Proof. reflexivity. Qed.
Lemma length_put : forall A (l : list A) i x, (i < length l)%nat -> length (put l i x) = length l.
Proof.
  intros A l i x H. unfold put. rewrite app_length. cbn [length]. rewrite firstn_length, skipn_length. lia.
Qed.
Lemma nth_put : forall A (l : list A) i x j, (i < length l)%nat -> nth_error (put l i x) j = if Nat.eqb j i then Some x else nth_error l j.
Proof.
  induction l as [| y l IH]; intros i x j H; [cbn [length] in H; lia |].
  destruct i as [| i].
  - unfold put. cbn [firstn skipn app]. destruct j; reflexivity.
  - rewrite put_cons. destruct j as [| j]; [reflexivity |]. cbn [nth_error Nat.eqb]. apply IH. cbn [length] in H. lia.
Qed.
Lemma nth_bound : forall A (l : list A) i x, nth_error l i = Some x -> (i < length l)%nat.
Proof. intros A l i x H. apply nth_error_Some. rewrite H. discriminate. Qed.
Lemma nth_snoc : forall A (l : list A) x j, nth_error (l ++ [x]) j = if Nat.eqb j (length l) then Some x else nth_error l j.
Proof.
  intros A l x j. destruct (Nat.eqb_spec j (length l)) as [-> | Q].
  - rewrite nth_error_app2, Nat.sub_diag by lia. reflexivity.
  - destruct (Nat.lt_ge_cases j (length l)) as [H | H].
    + apply nth_error_app1. exact H.
    + rewrite (proj2 (nth_error_None l j)) by lia. apply nth_error_None. rewrite app_length. cbn [length]. lia.
Qed.

Lemma get_remove : forall sid sid' l, m_get sid (m_remove sid' l) = if sid =? sid' then None else m_get sid l.
Proof.
  intros sid sid' l. unfold m_get, m_remove. induction l as [| [a k] l IH]; cbn [filter List.find fst].
  - destruct (sid =? sid'); reflexivity.
  - destruct (N.eqb_spec a sid') as [-> | Q]; cbn [negb].
    + rewrite IH. destruct (N.eqb_spec sid sid') as [-> | Q']; [reflexivity |].
      destruct (N.eqb_spec sid' sid) as [E | _]; [congruence |]. reflexivity.
    + cbn [List.find fst]. destruct (N.eqb_spec a sid) as [-> | Q'].
      * destruct (N.eqb_spec sid sid') as [-> | _]; [congruence |]. reflexivity.
      * exact IH.
Qed.
Lemma get_insert : forall sid sid' k l, m_get sid (m_insert sid' k l) = if sid =? sid' then Some k else m_get sid l.
Proof.
  intros sid sid' k l. unfold m_insert. unfold m_get at 1. cbn [List.find fst snd].
  destruct (N.eqb_spec sid' sid) as [-> | Q].
  - rewrite N.eqb_refl. reflexivity.
  - fold (m_get sid (m_remove sid' l)). rewrite get_remove. destruct (N.eqb_spec sid sid'); [congruence | reflexivity].
Qed.

Lemma k_moves_app : forall a s b, k_moves s (a ++ b) = match k_moves s a with Some s' => k_moves s' b | None => None end.
Proof. induction a as [| m a IH]; intros s b; [reflexivity |]. cbn [k_moves app]. destruct (k_move s m); [apply IH | reflexivity]. Qed.
Lemma k_moves_ind : forall (P : list kmove -> sock -> Prop) s0,
  P [] s0 -> (forall ms s m s', P ms s -> k_move s m = Some s' -> P (ms ++ [m]) s') -> forall ms s, k_moves s0 ms = Some s -> P ms s.
Proof.
  intros P s0 H0 HS ms. induction ms as [| m ms IH] using rev_ind; intros s H; [cbn in H; congruence |].
  rewrite k_moves_app in H. destruct (k_moves s0 ms) as [s1 |] eqn:E; [| discriminate]. cbn [k_moves] in H.
  destruct (k_move s1 m) as [s2 |] eqn:E2; [| discriminate]. injection H as <-. exact (HS _ _ _ _ (IH _ eq_refl) E2).
Qed.

(** ** Histories *)

Lemma mine_snoc : forall k sid evs t e,
  mine k sid t (evs ++ [e]) = mine k sid t evs ++ if displaced sid evs then [] else mine k sid (t && negb (dropped k evs)) [e].
Proof.
  intros k sid evs. induction evs as [| x evs IH]; intros t e.
  - cbn [app mine displaced dropped existsb negb]. rewrite andb_true_r. reflexivity.
  - change ((x :: evs) ++ [e]) with (x :: (evs ++ [e])). unfold displaced, dropped. cbn [existsb]. fold (displaced sid evs). fold (dropped k evs).
    destruct x as [k' h' sid' | i sid' | f | k']; cbn [mine].
    + destruct (sid' =? sid); cbn [orb]; [reflexivity |]. apply IH.
    + cbn [orb]. apply IH.
    + cbn [orb]. destruct (RustStreamModel.rframe_sid f =? sid); rewrite IH; reflexivity.
    + cbn [orb]. rewrite IH. destruct (Nat.eqb k' k); cbn [negb orb]; rewrite ?andb_true_r, ?andb_false_r, ?andb_false_l; reflexivity.
Qed.
Lemma heard_app : forall h a b, heard h (a ++ b) = heard h a ++ if done h a then [] else heard h b.
Proof.
  intros h a b. induction a as [| [f t] a IH]; [reflexivity |]. unfold done. cbn [app heard existsb fst]. fold (done h a).
  destruct (final h f); cbn [orb]; [rewrite !app_nil_r; reflexivity |]. rewrite IH, app_assoc. reflexivity.
Qed.
Lemma done_app : forall h a b, done h (a ++ b) = done h a || done h b.
Proof. intros h a b. apply existsb_app. Qed.
Lemma displaced_app : forall sid a b, displaced sid (a ++ b) = displaced sid a || displaced sid b.
Proof. intros. apply existsb_app. Qed.
Lemma dropped_app : forall k a b, dropped k (a ++ b) = dropped k a || dropped k b.
Proof. intros. apply existsb_app. Qed.
Lemma openings_app : forall a b, openings (a ++ b) = (openings a + openings b)%nat.
Proof. intros. unfold openings. rewrite filter_app, app_length. reflexivity. Qed.

(** ** Ports *)

(** What is to hold of a port for the part of the history after it was registered. *)
Definition kept (hs : list (N * nat)) (before after : list event) (k : nat) (o : port) : Prop :=
  o_open o = negb (dropped k after) /\
  o_log o = opens_with before ++ heard (o_kind o) (mine k (o_sid o) true after) /\
  (m_get (o_sid o) hs = Some k <-> displaced (o_sid o) after = false /\ done (o_kind o) (mine k (o_sid o) true after) = false).
Definition ports_inv (hs : list (N * nat)) (ps : list port) (hist : list event) : Prop :=
  openings hist = length ps /\
  (forall sid k, m_get sid hs = Some k -> exists o, nth_error ps k = Some o /\ o_sid o = sid) /\
  forall k o, nth_error ps k = Some o -> exists before after, opened hist before after k (o_kind o) (o_sid o) /\ kept hs before after k o.

Lemma opened_snoc : forall hist before after k h sid e, opened hist before after k h sid -> opened (hist ++ [e]) before (after ++ [e]) k h sid.
Proof. intros hist before after k h sid e (-> & H). split; [rewrite <- app_assoc; reflexivity | exact H]. Qed.

(** A handler is registered. *)
Lemma inv_open : forall hs ps hist h sid, ports_inv hs ps hist ->
  ports_inv (m_insert sid (length ps) hs) (ps ++ [mkPort h sid true (opens_with hist)]) (hist ++ [EOpen (length ps) h sid]).
Proof.
  intros hs ps hist h sid (C & W & K). split; [| split].
  - rewrite openings_app, app_length, C. reflexivity.
  - intros sid' k G. rewrite get_insert in G. destruct (N.eqb_spec sid' sid) as [-> | Q].
    + assert (k = length ps) by congruence. subst k. eexists. rewrite nth_snoc, Nat.eqb_refl. split; reflexivity.
    + destruct (W _ _ G) as (o & E & S). exists o. rewrite nth_snoc. pose proof (nth_bound _ _ _ _ E).
      destruct (Nat.eqb_spec k (length ps)); [lia |]. split; assumption.
  - intros k o E. rewrite nth_snoc in E. destruct (Nat.eqb_spec k (length ps)) as [-> | Q].
    + assert (o = mkPort h sid true (opens_with hist)) by congruence. subst o. exists hist, []. cbn [o_kind o_sid]. split; [split; [reflexivity | exact C] |].
      split; [reflexivity |]. split; [cbn; rewrite app_nil_r; reflexivity |]. cbn [o_sid]. rewrite get_insert, N.eqb_refl. cbn. tauto.
    + pose proof (nth_bound _ _ _ _ E) as B. destruct (K _ _ E) as (b & a & O & (K1 & K2 & K3)). exists b, (a ++ [EOpen (length ps) h sid]). split; [apply opened_snoc; exact O |].
      split; [rewrite dropped_app; cbn; rewrite orb_false_r; exact K1 |].
      assert (M : mine k (o_sid o) true (a ++ [EOpen (length ps) h sid]) = mine k (o_sid o) true a).
      { rewrite mine_snoc. cbn [mine]. destruct (displaced (o_sid o) a); destruct (sid =? o_sid o); apply app_nil_r. }
      rewrite M. split; [exact K2 |]. rewrite get_insert, displaced_app. cbn [displaced existsb].
      destruct (N.eqb_spec (o_sid o) sid) as [Q' | Q'].
      * rewrite Q', N.eqb_refl. cbn [orb]. rewrite orb_true_r. split; [intro; exfalso; apply Q; congruence | intros (? & _); discriminate].
      * destruct (N.eqb_spec sid (o_sid o)); [congruence |]. cbn [orb]. rewrite orb_false_r. exact K3.
Qed.

(** An event that concerns no port. *)
Lemma inv_channel : forall hs ps hist i sid, ports_inv hs ps hist -> ports_inv hs ps (hist ++ [EChannel i sid]).
Proof.
  intros hs ps hist i sid (C & W & K). split; [rewrite openings_app; cbn; lia | split; [exact W |]].
  intros k o E. destruct (K _ _ E) as (b & a & O & (K1 & K2 & K3)). exists b, (a ++ [EChannel i sid]). split; [apply opened_snoc; exact O |].
  assert (M : mine k (o_sid o) true (a ++ [EChannel i sid]) = mine k (o_sid o) true a).
  { rewrite mine_snoc. cbn [mine]. destruct (displaced (o_sid o) a); apply app_nil_r. }
  unfold kept. rewrite M, dropped_app, displaced_app. cbn [dropped displaced existsb]. rewrite !orb_false_r. split; [exact K1 | split; [exact K2 | exact K3]].
Qed.

(** A receiver is dropped. *)
Lemma inv_drop : forall hs ps hist k o, ports_inv hs ps hist -> nth_error ps k = Some o ->
  ports_inv hs (put ps k (mkPort (o_kind o) (o_sid o) false (o_log o))) (hist ++ [EDrop k]).
Proof.
  intros hs ps hist k o (C & W & K) E. pose proof (nth_bound _ _ _ _ E) as B. split; [rewrite openings_app, length_put; cbn; lia | split].
  - intros sid j G. destruct (W _ _ G) as (o' & E' & S). rewrite nth_put by exact B. destruct (Nat.eqb_spec j k) as [-> | Q]; [| eauto].
    eexists. split; [reflexivity |]. cbn [o_sid]. congruence.
  - intros j o' E'. rewrite nth_put in E' by exact B.
    assert (X : exists o1, nth_error ps j = Some o1 /\ o_kind o' = o_kind o1 /\ o_sid o' = o_sid o1 /\ o_log o' = o_log o1 /\ o_open o' = o_open o1 && negb (Nat.eqb k j)).
    { destruct (Nat.eqb_spec j k) as [-> | Q].
      - exists o. assert (o' = mkPort (o_kind o) (o_sid o) false (o_log o)) by congruence. subst o'. rewrite Nat.eqb_refl, andb_false_r. auto.
      - exists o'. destruct (Nat.eqb_spec k j); [congruence |]. rewrite andb_true_r. auto. }
    destruct X as (o1 & E1 & -> & -> & X3 & X4). destruct (K _ _ E1) as (b & a & O & (K1 & K2 & K3)). exists b, (a ++ [EDrop k]). split; [apply opened_snoc; exact O |].
    assert (M : mine j (o_sid o1) true (a ++ [EDrop k]) = mine j (o_sid o1) true a).
    { rewrite mine_snoc. cbn [mine]. destruct (displaced (o_sid o1) a); apply app_nil_r. }
    assert (KK : forall h sid, h = o_kind o1 -> sid = o_sid o1 -> o_kind o' = h -> o_sid o' = sid -> kept hs b (a ++ [EDrop k]) j o').
    { intros h sid -> -> Hh Hs. unfold kept. rewrite Hh, Hs, M, dropped_app, displaced_app. cbn [dropped displaced existsb]. rewrite !orb_false_r.
      split; [rewrite X4, K1, negb_orb; reflexivity | split; [congruence | exact K3]]. }
    destruct (Nat.eqb_spec j k) as [-> | Q].
    + assert (Ho : o' = mkPort (o_kind o) (o_sid o) false (o_log o)) by congruence. assert (o1 = o) by congruence. subst o1.
      apply (KK _ _ eq_refl eq_refl); subst o'; reflexivity.
    + assert (o1 = o') by congruence. subst o1. apply (KK _ _ eq_refl eq_refl); reflexivity.
Qed.

(** A frame is processed. *)
Definition delivered (o : port) (f : rframe) : port := mkPort (o_kind o) (o_sid o) (o_open o) (o_log o ++ if o_open o then tells (o_kind o) f else []).
Lemma inv_frame : forall hs ps hist f hs' ps', ports_inv hs ps hist ->
  length ps' = length ps ->
  (forall j, nth_error ps' j = match m_get (RustStreamModel.rframe_sid f) hs with
                               | Some k => if Nat.eqb j k then match nth_error ps k with Some o => Some (delivered o f) | None => None end else nth_error ps j
                               | None => nth_error ps j end) ->
  (forall sid, m_get sid hs' = match m_get (RustStreamModel.rframe_sid f) hs with
                               | Some k => match nth_error ps k with Some o => if (sid =? RustStreamModel.rframe_sid f) && final (o_kind o) f then None else m_get sid hs | None => None end
                               | None => m_get sid hs end) ->
  ports_inv hs' ps' (hist ++ [EFrame f]).
Proof.
  intros hs ps hist f hs' ps' (C & W & K) L P G. set (id := RustStreamModel.rframe_sid f) in *.
  split; [rewrite openings_app, L; cbn; lia |].
  assert (N0 : forall k o o', nth_error ps k = Some o -> nth_error ps' k = Some o' -> o_kind o' = o_kind o /\ o_sid o' = o_sid o /\ o_open o' = o_open o).
  { intros k o o' E E'. rewrite P in E'. destruct (m_get id hs) as [k0 |]; [| replace o' with o by congruence; auto].
    destruct (Nat.eqb_spec k k0) as [-> | Q]; [| replace o' with o by congruence; auto]. rewrite E in E'. injection E' as <-. auto. }
  split.
  - intros sid k E. rewrite G in E. assert (E0 : m_get sid hs = Some k).
    { destruct (m_get id hs) as [k0 |]; [| exact E]. destruct (nth_error ps k0) as [o0 |]; [| discriminate]. destruct ((sid =? id) && final (o_kind o0) f); [discriminate | exact E]. }
    destruct (W _ _ E0) as (o & Ho & S). destruct (nth_error ps' k) as [o' |] eqn:E'.
    + exists o'. destruct (N0 _ _ _ Ho E') as (_ & S' & _). split; [reflexivity | congruence].
    + exfalso. apply nth_error_None in E'. pose proof (nth_bound _ _ _ _ Ho). lia.
  - intros k o' E'. destruct (nth_error ps k) as [o |] eqn:E.
    2:{ exfalso. apply nth_error_None in E. pose proof (nth_bound _ _ _ _ E'). lia. }
    destruct (N0 _ _ _ E E') as (S1 & S2 & S3). destruct (K _ _ E) as (b & a & O & (K1 & K2 & K3)). exists b, (a ++ [EFrame f]). rewrite S1, S2. split; [apply opened_snoc; exact O |].
    unfold kept. rewrite S1, S2, S3, dropped_app, displaced_app, mine_snoc, heard_app, done_app. cbn [dropped displaced existsb]. rewrite !orb_false_r. split; [exact K1 |].
    cbn [mine andb]. fold id. rewrite <- K1.
    destruct (N.eqb_spec id (o_sid o)) as [Q | Q].
    + (* a frame of its stream *)
      destruct (displaced (o_sid o) a) eqn:D.
      { assert (R : m_get id hs <> Some k) by (rewrite Q; intro R; apply K3 in R; destruct R; discriminate).
        cbn [done existsb heard]. rewrite orb_false_r. rewrite P in E'. split.
        - assert (o' = o).
          { destruct (m_get id hs) as [k0 |]; [| congruence]. destruct (Nat.eqb_spec k k0); [congruence |]. congruence. }
          subst o'. rewrite K2. destruct (done (o_kind o) (mine k (o_sid o) true a)); rewrite app_nil_r; reflexivity.
        - split; [| intros (? & _); discriminate]. intro R'. exfalso. rewrite G in R'. rewrite Q in R'. 
          apply R. rewrite Q. destruct (m_get (o_sid o) hs) as [k0 |]; [| exact R']. destruct (nth_error ps k0); [| discriminate].
          destruct ((o_sid o =? o_sid o) && _); [discriminate | exact R']. }
      destruct (done (o_kind o) (mine k (o_sid o) true a)) eqn:Dn.
      { assert (R : m_get id hs <> Some k) by (rewrite Q; intro R; apply K3 in R; destruct R; discriminate).
        cbn [orb]. rewrite P in E'. split.
        - assert (o' = o).
          { destruct (m_get id hs) as [k0 |]; [| congruence]. destruct (Nat.eqb_spec k k0); [congruence |]. congruence. }
          subst o'. rewrite K2. rewrite app_nil_r. reflexivity.
        - split; [| intros (_ & ?); discriminate]. intro R'. exfalso. rewrite G in R'. rewrite Q in R'. 
          apply R. rewrite Q. destruct (m_get (o_sid o) hs) as [k0 |]; [| exact R']. destruct (nth_error ps k0); [| discriminate].
          destruct ((o_sid o =? o_sid o) && _); [discriminate | exact R']. }
      assert (R : m_get (o_sid o) hs = Some k) by (apply K3; auto). rewrite P, Q, R, Nat.eqb_refl, E in E'. injection E' as <-. cbn [delivered o_log].
      cbn [heard done existsb fst]. split.
      * rewrite K2, <- !app_assoc. do 2 f_equal. destruct (final (o_kind o) f); rewrite app_nil_r; reflexivity.
      * rewrite G, Q, R, E, N.eqb_refl, orb_false_r. cbn [andb orb]. destruct (final (o_kind o) f); [split; [discriminate | intros (_ & ?); discriminate] | rewrite ?R; tauto].
    + (* a frame of another stream *)
      assert (M : (if displaced (o_sid o) a then [] else @nil (rframe * bool)) = []) by (destruct (displaced (o_sid o) a); reflexivity).
      rewrite M. cbn [heard done existsb]. rewrite orb_false_r.
      assert (X : (if done (o_kind o) (mine k (o_sid o) true a) then [] else @nil news) = []) by (destruct (done (o_kind o) (mine k (o_sid o) true a)); reflexivity).
      rewrite X, app_nil_r. rewrite P in E'. split.
      * assert (o' = o).
        { destruct (m_get id hs) as [k0 |] eqn:Eh; [| congruence]. destruct (Nat.eqb_spec k k0) as [-> | Qk]; [| congruence].
          exfalso. destruct (W _ _ Eh) as (o1 & E1 & S). congruence. }
        subst o'. exact K2.
      * assert (Y : m_get (o_sid o) hs' = m_get (o_sid o) hs).
        { rewrite G. destruct (m_get id hs) as [k0 |] eqn:Eh; [| reflexivity]. destruct (W _ _ Eh) as (o1 & E1 & _). rewrite E1.
          destruct (N.eqb_spec (o_sid o) id); [congruence |]. reflexivity. }
        rewrite Y. exact K3.
Qed.

(** ** What each move leaves alone *)

Lemma sends_fields : forall j l s, let s' := fold_left (fun s f => send s (ByServe j) f) l s in
  k_next s' = k_next s /\ k_handlers s' = k_handlers s /\ k_channels s' = k_channels s /\ k_ports s' = k_ports s /\ k_callers s' = k_callers s /\
  k_serves s' = k_serves s /\ k_hist s' = k_hist s /\ k_out s' = k_out s ++ map (fun f => (ByServe j, f)) l.
Proof.
  intros j. induction l as [| f l IH]; intros s; cbn [fold_left map]; [cbn; rewrite app_nil_r; repeat split |].
  destruct (IH (send s (ByServe j) f)) as (-> & -> & -> & -> & -> & -> & -> & ->). cbn [send k_next k_handlers k_channels k_ports k_callers k_serves k_hist k_out].
  rewrite <- app_assoc. repeat split.
Qed.

Lemma opens_open : forall hist k h sid, opens_with (hist ++ [EOpen k h sid]) = [].
Proof. intros. unfold opens_with. rewrite rev_app_distr. reflexivity. Qed.
Lemma opens_channel : forall hist i sid, opens_with (hist ++ [EChannel i sid]) = [].
Proof. intros. unfold opens_with. rewrite rev_app_distr. reflexivity. Qed.
Lemma opens_drop : forall hist k, opens_with (hist ++ [EDrop k]) = [].
Proof. intros. unfold opens_with. rewrite rev_app_distr. reflexivity. Qed.
Lemma opens_frame : forall hist f, opens_with (hist ++ [EFrame f]) = match f with RRequestChannel r => [NItem (rq_data r, rq_metadata r)] | _ => [] end.
Proof. intros. unfold opens_with. rewrite rev_app_distr. destruct f; reflexivity. Qed.

Definition settled (s : sock) : Prop := ports_inv (k_handlers s) (k_ports s) (k_hist s) /\ opens_with (k_hist s) = [].

Lemma delivered_nothing : forall o f, tells (o_kind o) f = [] -> delivered o f = o.
Proof. intros [h sid op lg] f H. unfold delivered. cbn [o_kind o_sid o_open o_log] in *. rewrite H. destruct op; rewrite app_nil_r; reflexivity. Qed.
Lemma handler_of_get : forall s sid k o, handler_of s sid = Some (k, o) -> m_get sid (k_handlers s) = Some k /\ nth_error (k_ports s) k = Some o.
Proof.
  intros s sid k o H. unfold handler_of in H. destruct (m_get sid (k_handlers s)) as [k' |]; [| discriminate]. destruct (nth_error (k_ports s) k') as [o' |] eqn:E; [| discriminate].
  injection H as -> ->. auto.
Qed.
Lemma handler_of_none : forall s sid, ports_inv (k_handlers s) (k_ports s) (k_hist s) -> handler_of s sid = None -> m_get sid (k_handlers s) = None.
Proof.
  intros s sid (_ & W & _) H. unfold handler_of in H. destruct (m_get sid (k_handlers s)) as [k |] eqn:E; [| reflexivity].
  destruct (W _ _ E) as (o & Ho & _). rewrite Ho in H. discriminate.
Qed.

(** A frame that is not for a handler. *)
Lemma inv_frame_idle : forall hs ps hist f, ports_inv hs ps hist -> (forall h, tells h f = [] /\ final h f = false) -> ports_inv hs ps (hist ++ [EFrame f]).
Proof.
  intros hs ps hist f V H. apply (inv_frame hs ps hist f hs ps V eq_refl).
  - intro j. destruct (m_get (RustStreamModel.rframe_sid f) hs) as [k |] eqn:E; [| reflexivity]. destruct V as (_ & W & _). destruct (W _ _ E) as (o & Ho & _). rewrite Ho.
    destruct (Nat.eqb_spec j k) as [-> | Q]; [| reflexivity]. rewrite Ho. f_equal. symmetry. apply delivered_nothing. apply H.
  - intro sid. destruct (m_get (RustStreamModel.rframe_sid f) hs) as [k |] eqn:E; [| reflexivity]. destruct V as (_ & W & _). destruct (W _ _ E) as (o & Ho & _). rewrite Ho.
    destruct (H (o_kind o)) as (_ & ->). rewrite andb_false_r. reflexivity.
Qed.
(** A frame for a stream without a handler. *)
Lemma inv_frame_lost : forall hs ps hist f, ports_inv hs ps hist -> m_get (RustStreamModel.rframe_sid f) hs = None -> ports_inv hs ps (hist ++ [EFrame f]).
Proof. intros hs ps hist f V H. apply (inv_frame hs ps hist f hs ps V eq_refl); intros; rewrite H; reflexivity. Qed.
(** A frame for a handler. *)
Lemma inv_frame_hit : forall hs ps hist f k o hs' ps', ports_inv hs ps hist -> m_get (RustStreamModel.rframe_sid f) hs = Some k -> nth_error ps k = Some o ->
  (ps' = put ps k (delivered o f) \/ (ps' = ps /\ delivered o f = o)) -> (hs' = if final (o_kind o) f then m_remove (RustStreamModel.rframe_sid f) hs else hs) -> ports_inv hs' ps' (hist ++ [EFrame f]).
Proof.
  intros hs ps hist f k o hs' ps' V G E Hp ->. pose proof (nth_bound _ _ _ _ E) as B. apply (inv_frame hs ps hist f _ ps' V).
  - destruct Hp as [-> | (-> & _)]; [apply length_put; exact B | reflexivity].
  - intro j. rewrite G, E. destruct Hp as [-> | (-> & ->)]; [apply nth_put; exact B |]. destruct (Nat.eqb_spec j k) as [-> | Q]; [exact E | reflexivity].
  - intro sid. rewrite G, E. destruct (final (o_kind o) f); [rewrite get_remove |]; destruct (sid =? _); reflexivity.
Qed.

Lemma settled_payload : forall s p, settled s -> settled (on_payload (with_hist s (EFrame (RPayloadFrame p))) p).
Proof.
  intros s p (V & O). set (f := RPayloadFrame p). unfold on_payload. cbv zeta.
  change (handler_of (with_hist s (EFrame f)) (rp_sid p)) with (handler_of s (rp_sid p)).
  destruct (handler_of s (rp_sid p)) as [[k o] |] eqn:E.
  2:{ split; [| apply opens_frame]. cbn. apply inv_frame_lost; [exact V |]. exact (handler_of_none _ _ V E). }
  destruct (handler_of_get _ _ _ _ E) as (G & P).
  pose proof (fun hs' ps' => inv_frame_hit _ _ _ f k o hs' ps' V G P) as X. change (RustStreamModel.rframe_sid f) with (rp_sid p) in X.
  assert (T : tells (o_kind o) f = if rp_next p then [NItem (rp_data p, rp_metadata p)] else []) by reflexivity.
  destruct (o_kind o) eqn:Ek; cbn [final] in X; unfold f in X; cbn [final] in X; fold f in X.
  - destruct (rp_next p && o_open o) eqn:B; (split; [| apply opens_frame]); cbn [log_to with_ports unregister with_hist k_handlers k_ports k_hist].
    + apply X; [left | reflexivity]. apply andb_true_iff in B as (B1 & B2). unfold delivered. rewrite Ek, T, B1, B2. reflexivity.
    + apply X; [right; split; [reflexivity |] | reflexivity]. destruct (rp_next p) eqn:B1; cbn [andb] in B; [| apply delivered_nothing; rewrite Ek; exact T].
      destruct o as [h sid op lg]. cbn [o_open o_kind] in *. subst op. unfold delivered. cbn. rewrite app_nil_r. reflexivity.
  - destruct (rp_next p) eqn:B1; [destruct (o_open o) eqn:B2 |]; destruct (rp_complete p); (split; [| apply opens_frame]);
      cbn [log_to with_ports unregister with_hist send k_handlers k_ports k_hist]; apply X; try reflexivity;
      first [left; unfold delivered; rewrite Ek, T, B2; reflexivity
            | right; split; [reflexivity |]; first [apply delivered_nothing; rewrite Ek; exact T | destruct o as [h sid op lg]; cbn [o_open] in B2; subst op; unfold delivered; cbn; rewrite app_nil_r; reflexivity]].
  - destruct (rp_next p) eqn:B1; [destruct (o_open o) eqn:B2 |]; destruct (rp_complete p); (split; [| apply opens_frame]);
      cbn [log_to with_ports unregister with_hist send k_handlers k_ports k_hist]; apply X; try reflexivity;
      first [left; unfold delivered; rewrite Ek, T, B2; reflexivity
            | right; split; [reflexivity |]; first [apply delivered_nothing; rewrite Ek; exact T | destruct o as [h sid op lg]; cbn [o_open] in B2; subst op; unfold delivered; cbn; rewrite app_nil_r; reflexivity]].
Qed.
Lemma settled_cancel : forall s sid s', settled s -> on_cancel (with_hist s (EFrame (RCancel sid))) sid = Some s' -> settled s'.
Proof.
  intros s sid s' (V & O) H. set (f := RCancel sid) in *. unfold on_cancel in H. change (handler_of (with_hist s (EFrame f)) sid) with (handler_of s sid) in H.
  destruct (handler_of s sid) as [[k o] |] eqn:E.
  2:{ injection H as <-. split; [| apply opens_frame]. cbn. apply inv_frame_lost; [exact V |]. exact (handler_of_none _ _ V E). }
  destruct (handler_of_get _ _ _ _ E) as (G & P).
  pose proof (fun hs' ps' => inv_frame_hit _ _ _ f k o hs' ps' V G P) as X. change (RustStreamModel.rframe_sid f) with sid in X. cbv zeta in H.
  destruct (o_kind o) eqn:Ek; cbn [final] in X; unfold f in X; cbn [final] in X; fold f in X.
  - destruct (o_open o) eqn:B; [| discriminate]. injection H as <-. split; [| apply opens_frame]. cbn. apply X; [left | reflexivity]. unfold delivered. rewrite Ek, B. reflexivity.
  - injection H as <-. split; [| apply opens_frame]. cbn. apply X; [right; split; [reflexivity |] | reflexivity]. apply delivered_nothing. rewrite Ek. reflexivity.
  - injection H as <-. split; [| apply opens_frame]. cbn. apply X; [right; split; [reflexivity |] | reflexivity]. apply delivered_nothing. rewrite Ek. reflexivity.
Qed.
Lemma settled_error : forall s sid code data s', settled s -> on_error (with_hist s (EFrame (RErrorFrame sid code data))) sid code data = Some s' -> settled s'.
Proof.
  intros s sid code data s' (V & O) H. set (f := RErrorFrame sid code data) in *. unfold on_error in H. change (handler_of (with_hist s (EFrame f)) sid) with (handler_of s sid) in H.
  destruct (handler_of s sid) as [[k o] |] eqn:E.
  2:{ injection H as <-. split; [| apply opens_frame]. cbn. apply inv_frame_lost; [exact V |]. exact (handler_of_none _ _ V E). }
  destruct (handler_of_get _ _ _ _ E) as (G & P).
  destruct (o_open o) eqn:B; [| discriminate]. injection H as <-. split; [| apply opens_frame]. cbn.
  apply (inv_frame_hit _ _ _ f k o _ _ V G P); [left | reflexivity]. unfold delivered. rewrite B. cbn [tells f]. destruct data; reflexivity.
Qed.

Lemma settled_move : forall s m s', settled s -> k_move s m = Some s' -> settled s'.
Proof.
  intros s m s' V H. destruct m as [c p | | i x | i | k | i | j | j x | j | f]; cbn [k_move] in H.
  - injection H as <-. unfold do_call. destruct c; cbv zeta; [exact V | |]; destruct V as (V & O); (split; [| apply opens_open]); cbn; rewrite <- O; apply (inv_open _ _ _ _ _ V).
  - injection H as <-. unfold do_channel. cbv zeta. destruct V as (V & O). split; [| apply opens_channel]. cbn. apply inv_channel.
    replace (@nil news) with (opens_with (k_hist s)) by exact O. apply (inv_open _ _ _ _ _ V).
  - destruct (nth_error (k_callers s) i) as [a |]; [| discriminate]. destruct (u_live (a_in a)); [| discriminate]. injection H as <-. exact V.
  - destruct (nth_error (k_callers s) i) as [a |]; [| discriminate]. injection H as <-. exact V.
  - destruct (nth_error (k_ports s) k) as [o |] eqn:E; [| discriminate]. injection H as <-. destruct V as (V & O). split; [| apply opens_drop]. cbn. exact (inv_drop _ _ _ _ _ V E).
  - unfold caller_step in H. destruct (nth_error (k_callers s) i) as [a |]; [| discriminate]. destruct (a_phase a); [| | discriminate].
    + destruct (next_of (a_in a)) as [[x |] |]; [| injection H as <-; exact V | discriminate]. destruct (a_n a =? 0); [discriminate |].
      destruct x as [p | e |]; injection H as <-; exact V.
    + destruct (nth_error (a_grants a) (a_used a)); [injection H as <-; exact V |]. destruct (m_get (a_sid a) (k_channels s)) as [i' |]; [destruct (Nat.eqb i' i); [discriminate |] |]; injection H as <-; exact V.
  - destruct (nth_error (k_serves s) j) as [v |]; [| discriminate]. destruct (serve_step v) as [[v' l] |]; [| discriminate]. injection H as <-.
    destruct (sends_fields j l (with_serves s (put (k_serves s) j v'))) as (_ & F1 & _ & F2 & _ & _ & F3 & _). unfold settled. rewrite F1, F2, F3. exact V.
  - destruct (nth_error (k_serves s) j) as [v |]; [| discriminate]. destruct (may_feed v x); [| discriminate]. injection H as <-. exact V.
  - destruct (nth_error (k_serves s) j) as [v |]; [| discriminate]. destruct (v_started v); [| discriminate]. injection H as <-. exact V.
  - unfold process_once in H. destruct f as [p | sid | sid code data | sid n | r | r | r | r].
    + injection H as <-. apply settled_payload. exact V.
    + exact (settled_cancel _ _ _ V H).
    + exact (settled_error _ _ _ _ _ V H).
    + injection H as <-. unfold on_request_n. destruct V as (V & O).
      assert (V' : settled (with_hist s (EFrame (RRequestN sid n)))).
      { split; [| apply opens_frame]. cbn. apply inv_frame_idle; [exact V |]. intro h. split; reflexivity. }
      destruct (n =? 0); [exact V' |]. destruct (m_get sid _) as [i |]; [| exact V']. destruct (nth_error _ i) as [a |]; [| exact V']. destruct (a_phase a); exact V'.
    + injection H as <-. destruct V as (V & O). split; [| apply opens_frame]. cbn. apply inv_frame_idle; [exact V |]. intro h. split; reflexivity.
    + injection H as <-. destruct V as (V & O). split; [| apply opens_frame]. cbn. apply inv_frame_idle; [exact V |]. intro h. split; reflexivity.
    + injection H as <-. destruct V as (V & O). split; [| apply opens_frame]. cbn. apply inv_frame_idle; [exact V |]. intro h. split; reflexivity.
    + injection H as <-. destruct V as (V & O). split; [| apply opens_open]. cbn.
      pose proof (inv_open _ _ _ ReqRC (rq_sid r) (inv_frame_idle _ _ _ (RRequestChannel r) V (fun h => conj eq_refl eq_refl))) as X.
      rewrite opens_frame in X. exact X.
Qed.
Lemma settled_new : forall sd, settled (new_sock sd).
Proof.
  intro sd. split; [| reflexivity]. split; [reflexivity |]. split; [intros sid k H; discriminate |]. intros k o H. destruct k; discriminate.
Qed.
Lemma settled_reached : forall sd ms s, k_moves (new_sock sd) ms = Some s -> settled s.
Proof. intros sd. apply (k_moves_ind (fun _ s => settled s)); [apply settled_new | intros; eapply settled_move; eassumption]. Qed.

(** ** Who said what *)

Lemma said_send : forall a b f s, said a (send s b f) = said a s ++ if author_eqb b a then [f] else [].
Proof.
  intros a b f s. unfold said. cbn [send k_out]. rewrite filter_app, map_app. cbn [filter fst]. destruct (author_eqb b a); reflexivity.
Qed.
Lemma said_sends : forall a j l s, said a (fold_left (fun s f => send s (ByServe j) f) l s) = said a s ++ if author_eqb (ByServe j) a then l else [].
Proof.
  intros a j l. induction l as [| f l IH]; intros s; cbn [fold_left].
  - destruct (author_eqb (ByServe j) a); rewrite app_nil_r; reflexivity.
  - rewrite IH, said_send, <- app_assoc. destruct (author_eqb (ByServe j) a); reflexivity.
Qed.
Lemma said_same : forall a s s', k_out s' = k_out s -> said a s' = said a s.
Proof. intros a s s' H. unfold said. rewrite H. reflexivity. Qed.

(** ** Sources *)

Lemma until_app : forall a b, completed a = false -> until_complete (a ++ b) = a ++ until_complete b.
Proof.
  induction a as [| x a IH]; intros b H; [reflexivity |]. unfold completed in H. cbn [existsb] in H. apply orb_false_iff in H as (H1 & H2).
  destruct x; [| | discriminate]; cbn [app until_complete]; rewrite IH by exact H2; reflexivity.
Qed.
Lemma completed_app : forall a b, completed (a ++ b) = completed a || completed b.
Proof. intros. apply existsb_app. Qed.
Lemma until_whole : forall a, completed a = false -> until_complete a = a.
Proof. intros a H. rewrite <- (app_nil_r a) at 1. rewrite until_app by exact H. apply app_nil_r. Qed.
Lemma firstn_S_nth : forall A (l : list A) n x, nth_error l n = Some x -> firstn (S n) l = firstn n l ++ [x].
Proof.
  intros A. induction l as [| y l IH]; intros n x H; [destruct n; discriminate |]. destruct n as [| n].
  - cbn in H. injection H as ->. reflexivity.
  - change (y :: firstn (S n) l = y :: (firstn n l ++ [x])). f_equal. apply IH. exact H.
Qed.

(** A source that is read up to its end only. *)
Definition good_source (u : source) (over : bool) : Prop :=
  (u_pos u <= length (u_fed u))%nat /\ completed (firstn (u_pos u) (u_fed u)) = false /\
  (over = true -> nth_error (u_fed u) (u_pos u) = Some SComplete \/ (u_pos u = length (u_fed u) /\ u_live u = false)).
Lemma good_new : good_source new_source false.
Proof. split; [apply le_n |]. split; [reflexivity | discriminate]. Qed.
Lemma good_feed : forall u over x, good_source u over -> u_live u = true -> good_source (feed u x) over.
Proof.
  intros [fed pos live] over x (G1 & G2 & G3) H. unfold good_source, feed in *. cbn [u_fed u_pos u_live] in *. split; [rewrite app_length; cbn; lia |]. split.
  - rewrite firstn_app. replace (pos - length fed)%nat with 0%nat by lia. cbn [firstn]. rewrite app_nil_r. exact G2.
  - intro Q. destruct (G3 Q) as [G | (_ & G)]; [left | congruence]. rewrite nth_error_app1 by (eapply nth_bound; exact G). exact G.
Qed.
Lemma good_cut : forall u over, good_source u over -> good_source (cut_off u) over.
Proof.
  intros [fed pos live] over (G1 & G2 & G3). unfold good_source, cut_off in *. cbn [u_fed u_pos u_live] in *. split; [exact G1 | split; [exact G2 |]]. intro Q. destruct (G3 Q) as [G | (G & _)]; [left; exact G | right; auto].
Qed.
Lemma good_read : forall u x, good_source u false -> next_of u = Some (Some x) ->
  good_source (read_one u) false /\ firstn (S (u_pos u)) (u_fed u) = firstn (u_pos u) (u_fed u) ++ [x] /\ x <> SComplete.
Proof.
  intros [fed pos live] x (G1 & G2 & _) H. unfold next_of in H. cbn [u_fed u_pos u_live read_one] in *.
  assert (E : nth_error fed pos = Some x /\ x <> SComplete).
  { destruct (nth_error fed pos) as [[p | e |] |]; [injection H as <-; split; [reflexivity | discriminate] | injection H as <-; split; [reflexivity | discriminate] | discriminate | destruct live; discriminate]. }
  destruct E as (E & Q). pose proof (firstn_S_nth _ _ _ _ E) as F. pose proof (nth_bound _ _ _ _ E) as B. split; [| split; [exact F | exact Q]].
  unfold good_source, read_one. cbn [u_fed u_pos u_live]. split; [lia |]. split; [| discriminate]. rewrite F, completed_app, G2. destruct x; [reflexivity | reflexivity | congruence].
Qed.
Lemma good_end : forall u, good_source u false -> next_of u = Some None -> good_source u true.
Proof.
  intros [fed pos live] (G1 & G2 & _) H. unfold next_of in H. cbn [u_fed u_pos u_live] in *. split; [exact G1 | split; [exact G2 |]]. intros _. cbn [u_fed u_pos u_live].
  destruct (nth_error fed pos) as [[p | e |] |] eqn:E; [discriminate | discriminate | left; reflexivity |]. right. apply nth_error_None in E. destruct live; [discriminate |]. split; [lia | reflexivity].
Qed.
(** What was read is a beginning of what can be read; all of it at the end. *)
Lemma good_until : forall u over, good_source u over -> exists c, until_complete (u_fed u) = firstn (u_pos u) (u_fed u) ++ c.
Proof.
  intros [fed pos live] over (G1 & G2 & _). cbn [u_fed u_pos] in *. exists (until_complete (skipn pos fed)). rewrite <- until_app by exact G2. rewrite firstn_skipn. reflexivity.
Qed.
Lemma good_over : forall u, good_source u true -> until_complete (u_fed u) = firstn (u_pos u) (u_fed u) /\ completed (u_fed u) || negb (u_live u) = true.
Proof.
  intros [fed pos live] (G1 & G2 & G3). cbn [u_fed u_pos u_live] in *. destruct (G3 eq_refl) as [E | (E & ->)].
  - destruct (nth_error_split _ _ E) as (a & b & -> & L). subst pos. rewrite firstn_app, Nat.sub_diag, firstn_all in *. cbn [firstn] in *. rewrite app_nil_r in *.
    rewrite until_app by exact G2. cbn [until_complete]. rewrite app_nil_r. split; [reflexivity |]. rewrite completed_app. cbn [completed existsb]. rewrite orb_true_r. reflexivity.
  - subst pos. rewrite firstn_all in *. split; [apply until_whole; exact G2 | apply orb_true_r].
Qed.
Lemma good_idle : forall u, good_source u false -> next_of u = None -> until_complete (u_fed u) = firstn (u_pos u) (u_fed u) /\ completed (u_fed u) || negb (u_live u) = false.
Proof.
  intros [fed pos live] (G1 & G2 & _) H. unfold next_of in H. cbn [u_fed u_pos u_live] in *.
  destruct (nth_error fed pos) as [[p | e |] |] eqn:E; [discriminate | discriminate | discriminate |]. apply nth_error_None in E. destruct live; [| discriminate].
  assert (pos = length fed) by lia. subst pos. rewrite firstn_all in *. split; [apply until_whole; exact G2 | rewrite G2; reflexivity].
Qed.

(** ** The tasks of requests *)

Definition mono_kind (v : skind) : bool := match v with VRR | VFnF => true | _ => false end.
Definition mono_frames (v : skind) (sid : N) (fed : list signal) : list rframe :=
  match v with VRR => flat_map (answer_frame sid) fed | _ => flat_map (fun x => match x with SErr e => [RErrorFrame sid 513 e] | _ => [] end) fed end.
Definition serve_ok (said : list rframe) (v : serve) : Prop :=
  let u := v_src v in
  if mono_kind (v_kind v) then
    v_started v = true /\ (u_fed u = [] \/ exists x, x <> SComplete /\ u_fed u = [x]) /\ u_pos u = (if v_over v then 1%nat else 0%nat) /\ (v_over v = true -> u_fed u <> []) /\
    said = if v_over v then mono_frames (v_kind v) (v_sid v) (u_fed u) else []
  else
    good_source u (v_over v) /\ (v_started v = false -> u_fed u = [] /\ u_pos u = 0%nat /\ u_live u = true /\ v_over v = false) /\
    said = (if v_started v then match v_kind v with VChannel => [RRequestN (v_sid v) 0x7fffffff] | _ => [] end else []) ++
           map (item_frame (v_sid v)) (firstn (u_pos u) (u_fed u)) ++ if v_over v then [end_frame (v_sid v)] else [].

Definition serve_key (v : serve) : skind * N * pay := (v_kind v, v_sid v, v_data v).
Definition serves_inv (s : sock) : Prop :=
  map serve_key (k_serves s) = received (k_hist s) /\
  (forall j v, nth_error (k_serves s) j = Some v -> serve_ok (said (ByServe j) s) v) /\
  (forall j, (length (k_serves s) <= j)%nat -> said (ByServe j) s = []).

Lemma serve_step_ok : forall v v' l w, serve_ok w v -> serve_step v = Some (v', l) -> serve_ok (w ++ l) v' /\ serve_key v' = serve_key v.
Proof.
  intros [kind sid data started u over] v' l w K H. unfold serve_step in H. cbn [v_kind v_sid v_data v_started v_src v_over] in *.
  destruct over; [discriminate |]. unfold serve_ok in K. cbn [v_kind v_sid v_data v_started v_src v_over] in K.
  destruct kind; cbn [mono_kind] in K.
  - destruct K as (K1 & K2 & K3 & K4 & K5). rewrite K3 in H. destruct K2 as [K2 | (x & Q & K2)]; rewrite K2 in H; [discriminate |]. cbn [nth_error] in H.
    destruct x as [[d m] | e |]; [| | congruence]; injection H as <- <-; split; try reflexivity; unfold serve_ok; cbn [mono_kind v_kind v_sid v_src v_over v_started read_one u_fed u_pos u_live];
      (split; [reflexivity |]; split; [right; eexists; split; [| exact K2]; discriminate |]; split; [rewrite K3; reflexivity |]; split; [intros _; rewrite K2; discriminate |]);
      rewrite K5, K2; reflexivity.
  - destruct K as (K1 & K2 & K3 & K4 & K5). rewrite K3 in H. destruct K2 as [K2 | (x & Q & K2)]; rewrite K2 in H; [discriminate |]. cbn [nth_error] in H.
    destruct x as [[d m] | e |]; [| | congruence]; injection H as <- <-; split; try reflexivity; unfold serve_ok; cbn [mono_kind v_kind v_sid v_src v_over v_started read_one u_fed u_pos u_live];
      (split; [reflexivity |]; split; [right; eexists; split; [| exact K2]; discriminate |]; split; [rewrite K3; reflexivity |]; split; [intros _; rewrite K2; discriminate |]);
      rewrite K5, K2; reflexivity.
  - destruct K as (K1 & K2 & K3). destruct started; cbn [negb] in H.
    + destruct (next_of u) as [[x |] |] eqn:E; [| | discriminate]; injection H as <- <-; split; try reflexivity; unfold serve_ok; cbn [mono_kind v_kind v_sid v_src v_over v_started].
      * destruct (good_read _ _ K1 E) as (G & F & Q). split; [exact G |]. split; [discriminate |]. cbn [read_one u_fed u_pos]. rewrite F, K3, map_app, !app_nil_r, <- app_assoc. cbn [app map].
        destruct x as [[d m] | e |]; [reflexivity | reflexivity | congruence].
      * split; [exact (good_end _ K1 E) |]. split; [discriminate |]. rewrite K3, app_nil_r. reflexivity.
    + injection H as <- <-; split; [| reflexivity]; unfold serve_ok; cbn [mono_kind v_kind v_sid v_src v_over v_started]. split; [exact K1 |]. split; [discriminate |]. rewrite K3, app_nil_r. reflexivity.
  - destruct K as (K1 & K2 & K3). destruct started; cbn [negb] in H.
    + destruct (next_of u) as [[x |] |] eqn:E; [| | discriminate]; injection H as <- <-; split; try reflexivity; unfold serve_ok; cbn [mono_kind v_kind v_sid v_src v_over v_started].
      * destruct (good_read _ _ K1 E) as (G & F & Q). split; [exact G |]. split; [discriminate |]. cbn [read_one u_fed u_pos]. rewrite F, K3, map_app, !app_nil_r, <- !app_assoc. cbn [app map].
        destruct x as [[d m] | e |]; [reflexivity | reflexivity | congruence].
      * split; [exact (good_end _ K1 E) |]. split; [discriminate |]. rewrite K3, app_nil_r, <- app_assoc. reflexivity.
    + injection H as <- <-; split; [| reflexivity]; unfold serve_ok; cbn [mono_kind v_kind v_sid v_src v_over v_started]. split; [exact K1 |]. split; [discriminate |].
      destruct (K2 eq_refl) as (F & P & _ & _). rewrite K3, F, P. reflexivity.
Qed.
Lemma serve_feed_ok : forall v w x, serve_ok w v -> may_feed v x = true -> serve_ok w (feed_serve v (feed (v_src v) x)).
Proof.
  intros [kind sid data started u over] w x K H. unfold may_feed in H. unfold serve_ok, feed_serve in *. cbn [v_kind v_sid v_data v_started v_src v_over] in *.
  apply andb_true_iff in H as (H & H3). apply andb_true_iff in H as (H1 & H2). subst started.
  destruct kind; cbn [mono_kind] in *.
  - destruct K as (K1 & K2 & K3 & K4 & K5). destruct (u_fed u) as [| y l] eqn:F; [| discriminate]. destruct over; [exfalso; apply K4; reflexivity |].
    cbn [feed u_fed u_pos u_live]. rewrite F. split; [reflexivity |]. split; [right; exists x; split; [destruct x; discriminate | reflexivity] |]. split; [exact K3 |]. split; [discriminate | exact K5].
  - destruct K as (K1 & K2 & K3 & K4 & K5). destruct (u_fed u) as [| y l] eqn:F; [| discriminate]. destruct over; [exfalso; apply K4; reflexivity |].
    cbn [feed u_fed u_pos u_live]. rewrite F. split; [reflexivity |]. split; [right; exists x; split; [destruct x; discriminate | reflexivity] |]. split; [exact K3 |]. split; [discriminate | exact K5].
  - destruct K as (K1 & K2 & K3). split; [apply good_feed; assumption |]. split; [discriminate |]. rewrite K3. cbn [feed u_fed u_pos]. destruct K1 as (L & _).
    rewrite firstn_app. replace (u_pos u - length (u_fed u))%nat with 0%nat by lia. cbn [firstn]. rewrite app_nil_r. reflexivity.
  - destruct K as (K1 & K2 & K3). split; [apply good_feed; assumption |]. split; [discriminate |]. rewrite K3. cbn [feed u_fed u_pos]. destruct K1 as (L & _).
    rewrite firstn_app. replace (u_pos u - length (u_fed u))%nat with 0%nat by lia. cbn [firstn]. rewrite app_nil_r. reflexivity.
Qed.
Lemma serve_cut_ok : forall v w, serve_ok w v -> v_started v = true -> serve_ok w (feed_serve v (cut_off (v_src v))).
Proof.
  intros [kind sid data started u over] w K H. cbn [v_started] in H. subst started. unfold serve_ok, feed_serve in *. cbn [v_kind v_sid v_data v_started v_src v_over] in *.
  destruct (mono_kind kind); [exact K |]. destruct K as (K1 & K2 & K3). split; [apply good_cut; exact K1 |]. split; [discriminate | exact K3].
Qed.

Lemma serves_keep : forall s s', serves_inv s -> k_serves s' = k_serves s -> received (k_hist s') = received (k_hist s) -> (forall j, said (ByServe j) s' = said (ByServe j) s) -> serves_inv s'.
Proof. intros s s' (I1 & I2 & I3) E1 E2 E3. split; [congruence |]. split; intros; rewrite E3; [apply I2 | apply I3]; congruence. Qed.
Lemma map_put : forall A B (g : A -> B) l i x y, nth_error l i = Some y -> g x = g y -> map g (put l i x) = map g l.
Proof.
  intros A B g. induction l as [| z l IH]; intros i x y H E; [destruct i; discriminate |]. destruct i as [| i].
  - cbn in H. injection H as ->. unfold put. cbn [firstn skipn app map]. rewrite E. reflexivity.
  - rewrite put_cons. cbn [map]. f_equal. eapply IH; eassumption.
Qed.
Lemma serves_change : forall s s' j v v' l, serves_inv s -> nth_error (k_serves s) j = Some v -> k_serves s' = put (k_serves s) j v' -> serve_key v' = serve_key v -> k_hist s' = k_hist s ->
  (forall i, said (ByServe i) s' = said (ByServe i) s ++ if Nat.eqb j i then l else []) -> (serve_ok (said (ByServe j) s) v -> serve_ok (said (ByServe j) s ++ l) v') -> serves_inv s'.
Proof.
  intros s s' j v v' l (I1 & I2 & I3) E Es Ek Eh So K. pose proof (nth_bound _ _ _ _ E) as B. split; [| split].
  - rewrite Es, Eh, <- I1. eapply map_put; eassumption.
  - intros i w Ew. rewrite Es, nth_put in Ew by exact B. rewrite So. destruct (Nat.eqb_spec i j) as [-> | Q].
    + assert (w = v') by congruence. subst w. rewrite Nat.eqb_refl. apply K. apply I2. exact E.
    + destruct (Nat.eqb_spec j i); [congruence |]. rewrite app_nil_r. apply I2. exact Ew.
  - intros i L. rewrite Es, length_put in L by exact B. rewrite So. destruct (Nat.eqb_spec j i); [lia |]. rewrite app_nil_r. apply I3. exact L.
Qed.
Lemma serves_spawn : forall s s' v sid p, serves_inv s -> k_serves s' = k_serves (spawn s v sid p) -> received (k_hist s') = received (k_hist s) ++ [(v, sid, p)] ->
  (forall j, said (ByServe j) s' = said (ByServe j) s) -> serves_inv s'.
Proof.
  intros s s' v sid p (I1 & I2 & I3) Es Er So. cbn [spawn with_serves k_serves] in Es. split; [| split].
  - rewrite Es, map_app, I1, Er. reflexivity.
  - intros j w E. rewrite Es, nth_snoc in E. rewrite So. destruct (Nat.eqb_spec j (length (k_serves s))) as [-> | Q]; [| apply I2; exact E].
    injection E as <-. rewrite I3 by apply le_n. unfold serve_ok. cbn [v_kind v_sid v_src v_over v_started]. destruct v; cbn [mono_kind]; cbn;
      first [split; [reflexivity |]; split; [left; reflexivity |]; split; [reflexivity |]; split; [discriminate | reflexivity] | split; [apply good_new |]; split; [auto | reflexivity]].
  - intros j L. rewrite Es, app_length in L. cbn [length] in L. rewrite So. apply I3. lia.
Qed.

Lemma received_snoc : forall h e, received (h ++ [e]) = received h ++ request_in e.
Proof. intros. unfold received. rewrite flat_map_app. cbn [flat_map]. rewrite app_nil_r. reflexivity. Qed.

(** What the frames of the four kinds that are no requests leave alone. *)
Lemma on_payload_fields : forall s p, let s' := on_payload s p in
  k_next s' = k_next s /\ k_channels s' = k_channels s /\ k_callers s' = k_callers s /\ k_serves s' = k_serves s /\ k_hist s' = k_hist s /\
  (k_out s' = k_out s \/ (k_out s' = k_out s ++ [(ByFrame, RCancel (rp_sid p))] /\ exists k o, handler_of s (rp_sid p) = Some (k, o) /\ o_open o = false)).
Proof.
  intros s p. unfold on_payload. destruct (handler_of s (rp_sid p)) as [[k o] |] eqn:E; cbv zeta; [| cbn; auto 7].
  assert (X : forall (b : bool) (s1 : sock), (k_next s1 = k_next s /\ k_channels s1 = k_channels s /\ k_callers s1 = k_callers s /\ k_serves s1 = k_serves s /\ k_hist s1 = k_hist s /\
    (k_out s1 = k_out s \/ (k_out s1 = k_out s ++ [(ByFrame, RCancel (rp_sid p))] /\ exists k o, handler_of s (rp_sid p) = Some (k, o) /\ o_open o = false))) ->
    let s2 := if b then unregister s1 (rp_sid p) else s1 in
    k_next s2 = k_next s /\ k_channels s2 = k_channels s /\ k_callers s2 = k_callers s /\ k_serves s2 = k_serves s /\ k_hist s2 = k_hist s /\
    (k_out s2 = k_out s \/ (k_out s2 = k_out s ++ [(ByFrame, RCancel (rp_sid p))] /\ exists k o, handler_of s (rp_sid p) = Some (k, o) /\ o_open o = false))).
  { intros [|] s1 H; exact H. }
  rewrite E in X. destruct (o_kind o).
  - destruct (rp_next p && o_open o); cbn; auto 7.
  - apply X. destruct (rp_next p); [destruct (o_open o) eqn:B |]; cbn; auto 7. repeat (split; [reflexivity |]). right. split; [reflexivity | eauto].
  - apply X. destruct (rp_next p); [destruct (o_open o) eqn:B |]; cbn; auto 7. repeat (split; [reflexivity |]). right. split; [reflexivity | eauto].
Qed.
Lemma on_cancel_fields : forall s sid s', on_cancel s sid = Some s' ->
  k_next s' = k_next s /\ k_channels s' = k_channels s /\ k_callers s' = k_callers s /\ k_serves s' = k_serves s /\ k_hist s' = k_hist s /\ k_out s' = k_out s.
Proof.
  intros s sid s' H. unfold on_cancel in H. destruct (handler_of s sid) as [[k o] |]; [| injection H as <-; auto 7]. cbv zeta in H.
  destruct (o_kind o); [destruct (o_open o); [| discriminate] | |]; injection H as <-; cbn; auto 7.
Qed.
Lemma on_error_fields : forall s sid code data s', on_error s sid code data = Some s' ->
  k_next s' = k_next s /\ k_channels s' = k_channels s /\ k_callers s' = k_callers s /\ k_serves s' = k_serves s /\ k_hist s' = k_hist s /\ k_out s' = k_out s.
Proof.
  intros s sid code data s' H. unfold on_error in H. destruct (handler_of s sid) as [[k o] |]; [| injection H as <-; auto 7]. 
  destruct (o_open o); [| discriminate]; injection H as <-; cbn; auto 7.
Qed.

Ltac same_said := intro; unfold said; cbn [with_hist with_next with_callers with_serves with_ports register_handler send k_out]; rewrite ?filter_app, ?map_app; cbn [filter fst author_eqb map]; rewrite ?app_nil_r; reflexivity.

Lemma serves_move : forall s m s', serves_inv s -> k_move s m = Some s' -> serves_inv s'.
Proof.
  intros s m s' V H. destruct m as [c p | | i x | i | k | i | j | j x | j | f]; cbn [k_move] in H.
  - injection H as <-. unfold do_call. destruct c; cbv zeta; (eapply serves_keep; [exact V | reflexivity | cbn; rewrite ?received_snoc, ?app_nil_r; reflexivity | same_said]).
  - injection H as <-. unfold do_channel. cbv zeta. eapply serves_keep; [exact V | reflexivity | cbn; rewrite !received_snoc, !app_nil_r; reflexivity | same_said].
  - destruct (nth_error (k_callers s) i) as [a |]; [| discriminate]. destruct (u_live (a_in a)); [| discriminate]. injection H as <-. exact V.
  - destruct (nth_error (k_callers s) i) as [a |]; [| discriminate]. injection H as <-. exact V.
  - destruct (nth_error (k_ports s) k) as [o |] eqn:E; [| discriminate]. injection H as <-. eapply serves_keep; [exact V | reflexivity | cbn; rewrite received_snoc, app_nil_r; reflexivity | same_said].
  - unfold caller_step in H. destruct (nth_error (k_callers s) i) as [a |]; [| discriminate]. destruct (a_phase a); [| | discriminate].
    + destruct (next_of (a_in a)) as [[x |] |]; [| injection H as <-; eapply serves_keep; [exact V | reflexivity | reflexivity | unfold caller_end; same_said] | discriminate]. destruct (a_n a =? 0); [discriminate |].
      destruct x as [p | e |]; injection H as <-; (eapply serves_keep; [exact V | reflexivity | reflexivity | same_said]).
    + destruct (nth_error (a_grants a) (a_used a)); [injection H as <-; exact V |].
      destruct (m_get (a_sid a) (k_channels s)) as [i' |]; [destruct (Nat.eqb i' i); [discriminate |] |]; injection H as <-; (eapply serves_keep; [exact V | reflexivity | reflexivity | unfold caller_end; same_said]).
  - destruct (nth_error (k_serves s) j) as [v |] eqn:E; [| discriminate]. destruct (serve_step v) as [[v' l] |] eqn:Es; [| discriminate]. injection H as <-.
    destruct (sends_fields j l (with_serves s (put (k_serves s) j v'))) as (_ & _ & _ & _ & _ & F1 & F2 & _).
    eapply (serves_change s _ j v v' l V E); [exact F1 | | exact F2 | | intro K; exact (proj1 (serve_step_ok _ _ _ _ K Es))].
    + exact (proj2 (serve_step_ok _ _ _ _ (proj1 (proj2 V) _ _ E) Es)).
    + intro i. rewrite said_sends. cbn [author_eqb]. reflexivity.
  - destruct (nth_error (k_serves s) j) as [v |] eqn:E; [| discriminate]. destruct (may_feed v x) eqn:M; [| discriminate]. injection H as <-.
    eapply (serves_change s _ j v _ [] V E); [reflexivity | reflexivity | reflexivity | intro i; rewrite (said_same (ByServe i) s) by reflexivity; destruct (Nat.eqb j i); rewrite app_nil_r; reflexivity |].
    intro K. rewrite app_nil_r. apply serve_feed_ok; assumption.
  - destruct (nth_error (k_serves s) j) as [v |] eqn:E; [| discriminate]. destruct (v_started v) eqn:M; [| discriminate]. injection H as <-.
    eapply (serves_change s _ j v _ [] V E); [reflexivity | reflexivity | reflexivity | intro i; rewrite (said_same (ByServe i) s) by reflexivity; destruct (Nat.eqb j i); rewrite app_nil_r; reflexivity |].
    intro K. rewrite app_nil_r. apply serve_cut_ok; assumption.
  - unfold process_once in H. destruct f as [p | sid | sid code data | sid n | r | r | r | r].
    + injection H as <-. destruct (on_payload_fields (with_hist s (EFrame (RPayloadFrame p))) p) as (_ & _ & _ & F1 & F2 & F3).
      eapply serves_keep; [exact V | exact F1 | rewrite F2; cbn; rewrite received_snoc, app_nil_r; reflexivity |]. intro j. unfold said. destruct F3 as [-> | (-> & _)]; cbn [with_hist k_out]; [reflexivity |].
      rewrite filter_app. cbn. rewrite app_nil_r. reflexivity.
    + destruct (on_cancel_fields _ _ _ H) as (_ & _ & _ & F1 & F2 & F3). eapply serves_keep; [exact V | exact F1 | rewrite F2; cbn; rewrite received_snoc, app_nil_r; reflexivity |].
      intro j. apply said_same. exact F3.
    + destruct (on_error_fields _ _ _ _ _ H) as (_ & _ & _ & F1 & F2 & F3). eapply serves_keep; [exact V | exact F1 | rewrite F2; cbn; rewrite received_snoc, app_nil_r; reflexivity |].
      intro j. apply said_same. exact F3.
    + injection H as <-. assert (X : serves_inv (with_hist s (EFrame (RRequestN sid n)))) by (eapply serves_keep; [exact V | reflexivity | cbn; rewrite received_snoc, app_nil_r; reflexivity | same_said]).
      unfold on_request_n. destruct (n =? 0); [eapply serves_keep; [exact X | reflexivity | reflexivity | same_said] |].
      destruct (m_get sid _) as [i |]; [| eapply serves_keep; [exact X | reflexivity | reflexivity | same_said]]. destruct (nth_error _ i) as [a |]; [| exact X].
      destruct (a_phase a); first [exact X | eapply serves_keep; [exact X | reflexivity | reflexivity | same_said]].
    + injection H as <-. eapply serves_spawn; [exact V | reflexivity | cbn; rewrite received_snoc; reflexivity | same_said].
    + injection H as <-. eapply serves_spawn; [exact V | reflexivity | cbn; rewrite received_snoc; reflexivity | same_said].
    + injection H as <-. eapply serves_spawn; [exact V | reflexivity | cbn; rewrite received_snoc; reflexivity | same_said].
    + injection H as <-. eapply serves_spawn; [exact V | reflexivity | cbn; rewrite !received_snoc, app_nil_r; reflexivity | same_said].
Qed.
Lemma serves_reached : forall sd ms s, k_moves (new_sock sd) ms = Some s -> serves_inv s.
Proof.
  intros sd. apply (k_moves_ind (fun _ s => serves_inv s)); [| intros; eapply serves_move; eassumption].
  split; [reflexivity |]. split; [intros j v H; destruct j; discriminate | intros; reflexivity].
Qed.
