(** Proofs about [RustPairModel] against [RustPairSpec]. *)
From Coq Require Import List NArith ZArith Lia Bool ZifyBool ZifyNat ZifyN.
From Verif Require Import Base ProxyModel RustFramesModel RustSocketModel RustSocketSpec RustSocketProofs RustSocketCalls RustPairModel RustPairSpec.
From Verif Require RustCallModel RustStreamModel.
Import ListNotations.
Open Scope N_scope.
Notation sid_of := RustStreamModel.rframe_sid.

(** ** Ids *)

Lemma nth_id_own : forall sd c, own sd (nth_id sd c).
Proof.
  intros sd c. unfold own, nth_id. change (2 ^ 32) with (2 * 2147483648). rewrite N.mod_mul_r by lia.
  rewrite (N.mul_comm 2 (((first_id sd + 2 * c) / 2) mod 2147483648)), N.mod_add by lia. rewrite N.mod_mod by lia. rewrite (N.mul_comm 2 c), N.mod_add by lia. reflexivity.
Qed.
Lemma own_other : forall sd sid, own sd sid -> own (other sd) sid -> False.
Proof. intros [] sid A B; unfold own in *; cbn in *; congruence. Qed.

(** ** One socket *)

Lemma out_move : forall s m s', k_move s m = Some s' -> exists l, k_out s' = k_out s ++ l.
Proof.
  assert (Z : forall s s', k_out s' = k_out s -> exists l, k_out s' = k_out s ++ l) by (intros s s' E; exists []; rewrite app_nil_r; exact E).
  intros s m s' H. destruct m as [c p | | i x | i | k | i | j | j x | j | f]; cbn [k_move] in H.
  - injection H as <-. destruct c; eexists; reflexivity.
  - injection H as <-. apply Z. reflexivity.
  - destruct (nth_error (k_callers s) i) as [a |]; [| discriminate]. destruct (u_live (a_in a)); [| discriminate]. injection H as <-. apply Z. reflexivity.
  - destruct (nth_error (k_callers s) i) as [a |]; [| discriminate]. injection H as <-. apply Z. reflexivity.
  - destruct (nth_error (k_ports s) k) as [o |]; [| discriminate]. injection H as <-. apply Z. reflexivity.
  - unfold caller_step in H. destruct (nth_error (k_callers s) i) as [a |]; [| discriminate]. destruct (a_phase a); [| | discriminate].
    + destruct (next_of (a_in a)) as [[x |] |]; [| injection H as <-; eexists; reflexivity | discriminate]. destruct (a_n a =? 0); [discriminate |]. destruct x; injection H as <-; eexists; reflexivity.
    + destruct (nth_error (a_grants a) (a_used a)); [injection H as <-; apply Z; reflexivity |].
      destruct (m_get (a_sid a) (k_channels s)) as [i' |]; [destruct (Nat.eqb i' i); [discriminate |] |]; injection H as <-; eexists; reflexivity.
  - destruct (nth_error (k_serves s) j) as [v |]; [| discriminate]. destruct (serve_step v) as [[v' l] |]; [| discriminate]. injection H as <-.
    destruct (sends_fields j l (with_serves s (put (k_serves s) j v'))) as (_ & _ & _ & _ & _ & _ & _ & F). cbv zeta in F. rewrite F. eexists. reflexivity.
  - destruct (nth_error (k_serves s) j) as [v |]; [| discriminate]. destruct (may_feed v x); [| discriminate]. injection H as <-. apply Z. reflexivity.
  - destruct (nth_error (k_serves s) j) as [v |]; [| discriminate]. destruct (v_started v); [| discriminate]. injection H as <-. apply Z. reflexivity.
  - unfold process_once in H. destruct f as [p | sid | sid code data | sid n | r | r | r | r].
    + injection H as <-. destruct (on_payload_fields (with_hist s (EFrame (RPayloadFrame p))) p) as (_ & _ & _ & _ & _ & [F | (F & _)]); rewrite F; [apply Z | eexists]; reflexivity.
    + destruct (on_cancel_fields _ _ _ H) as (_ & _ & _ & _ & _ & F). apply Z. exact F.
    + destruct (on_error_fields _ _ _ _ _ H) as (_ & _ & _ & _ & _ & F). apply Z. exact F.
    + injection H as <-. unfold on_request_n. destruct (n =? 0); [eexists; reflexivity |]. destruct (m_get sid _) as [i |]; [| eexists; reflexivity]. destruct (nth_error _ i) as [a |]; [| apply Z; reflexivity].
      destruct (a_phase a); first [apply Z; reflexivity | eexists; reflexivity].
    + injection H as <-. apply Z. reflexivity.
    + injection H as <-. apply Z. reflexivity.
    + injection H as <-. apply Z. reflexivity.
    + injection H as <-. apply Z. reflexivity.
Qed.

Lemma requests_sids : forall ms id f, In f (requests id ms) -> is_request f = true /\ exists c, c < calls ms /\ sid_of f = if c =? 0 then id else (id + 2 * c) mod 2 ^ 32.
Proof.
  assert (STEP : forall ms id f, (exists c, c < calls ms /\ sid_of f = if c =? 0 then (id + 2) mod 2 ^ 32 else ((id + 2) mod 2 ^ 32 + 2 * c) mod 2 ^ 32) ->
    exists c, c < 1 + calls ms /\ sid_of f = if c =? 0 then id else (id + 2 * c) mod 2 ^ 32).
  { intros ms id f (c & L & E). exists (1 + c). split; [lia |]. destruct (N.eqb_spec (1 + c) 0); [lia |]. rewrite E. change (2 ^ 32) with 4294967296. destruct (N.eqb_spec c 0) as [-> | Q]; [f_equal; lia |].
    rewrite N.add_mod_idemp_l by lia. f_equal. lia. }
  induction ms as [| m ms IH]; intros id f H; [destruct H |].
  assert (C : calls (m :: ms) = (if is_call m then 1 else 0) + calls ms) by (unfold calls; cbn [filter]; destruct (is_call m); unfold len; cbn [length]; lia). rewrite C.
  destruct m as [c [d mm] | | | | | | | | |]; cbn [requests is_call] in *; try (change (0 + calls ms) with (calls ms); apply IH; exact H).
  - destruct H as [<- | H].
    + split; [destruct c; reflexivity |]. exists 0. split; [lia |]. destruct c; reflexivity.
    + destruct (IH _ _ H) as (R & E). split; [exact R | apply STEP; exact E].
  - destruct (IH _ _ H) as (R & E). split; [exact R | apply STEP; exact E].
Qed.
Lemma requests_ids : forall sd ms f, In f (requests (first_id sd) ms) -> is_request f = true /\ exists c, c < calls ms /\ sid_of f = nth_id sd c.
Proof.
  intros sd ms f H. destruct (requests_sids _ _ _ H) as (R & c & L & E). split; [exact R |]. exists c. split; [exact L |]. rewrite E. unfold nth_id.
  destruct (N.eqb_spec c 0) as [-> | Q]; [destruct sd; reflexivity | reflexivity].
Qed.
Definition plain_frame (f : rframe) : bool := match f with RCancel _ | RRequestN _ _ => false | _ => true end.
Lemma channel_sids : forall sid l b f, In f (channel_frames sid b l) -> sid_of f = sid /\ plain_frame f = true.
Proof.
  intros sid. induction l as [| x l IH]; intros b f H; [destruct H |]. destruct x as [[d m] | e |]; cbn [channel_frames] in H; destruct H as [<- | H]; try (eapply IH; exact H); try (split; reflexivity).
  destruct b; split; reflexivity.
Qed.
Definition served_frame (sid : N) (f : rframe) : Prop := sid_of f = sid /\ is_request f = false /\ (forall x, f <> RCancel x) /\ (forall n, f = RRequestN sid n -> n = 0x7fffffff).
Lemma owed_sids : forall v sid l live f, In f (owed v sid l live) -> served_frame sid f.
Proof.
  intros v sid l live f H.
  assert (IT : forall x, served_frame sid (item_frame sid x)) by (intros [[d m] | e |]; split; try reflexivity; split; try reflexivity; split; discriminate).
  assert (EN : served_frame sid (end_frame sid)) by (split; [reflexivity |]; split; [reflexivity |]; split; discriminate).
  assert (ST : In f (map (item_frame sid) (until_complete l) ++ (if completed l || negb live then [end_frame sid] else [])) -> served_frame sid f).
  { intro Q. apply in_app_or in Q as [Q | Q]; [apply in_map_iff in Q as (x & <- & _); apply IT |]. destruct (completed l || negb live); [destruct Q as [<- | []]; exact EN | destruct Q]. }
  destruct v; cbn [owed] in H.
  - apply in_flat_map in H as (x & _ & Q). destruct x as [[d m] | e |]; cbn in Q; try contradiction; destruct Q as [<- | []]; split; try reflexivity; split; try reflexivity; split; discriminate.
  - apply in_flat_map in H as (x & _ & Q). destruct x as [[d m] | e |]; cbn in Q; try contradiction; destruct Q as [<- | []]; split; try reflexivity; split; try reflexivity; split; discriminate.
  - apply ST. exact H.
  - destruct H as [<- | H]; [| apply ST; exact H]. split; [reflexivity |]. split; [reflexivity |]. split; [discriminate |]. intros n E. congruence.
Qed.

(** Who says what on which stream. *)
Lemma authors : forall sd ms s au f, k_moves (new_sock sd) ms = Some s -> calls ms <= 2 ^ 31 -> In (au, f) (k_out s) ->
  match au with
  | ByApp | ByCaller _ => plain_frame f = true /\ exists c, c < calls ms /\ sid_of f = nth_id sd c
  | ByServe j => exists v sid p, nth_error (received (k_hist s)) j = Some (v, sid, p) /\ served_frame sid f
  | ByFrame => reply_ok (k_hist s) f
  end.
Proof.
  intros sd ms s au f H L Hi. assert (Hs : In f (said au s)).
  { unfold said. apply in_map_iff. exists (au, f). split; [reflexivity |]. apply filter_In. split; [exact Hi |]. destruct au; cbn [fst author_eqb]; try reflexivity; apply Nat.eqb_refl. }
  destruct au as [| i | j |].
  - rewrite (proj2 (next_reached _ _ _ H)) in Hs. destruct (requests_ids _ _ _ Hs) as (R & E). split; [destruct f; reflexivity || discriminate | exact E].
  - pose proof (callers_reached _ _ _ H L) as C. destruct (nth_error (k_callers s) i) as [a |] eqn:Ea; [| apply nth_error_None in Ea; rewrite (ci_none _ _ _ C _ Ea) in Hs; destruct Hs].
    destruct (ci_ok _ _ _ C _ _ Ea) as (_ & Ew & _). rewrite Ew in Hs. assert (X : sid_of f = a_sid a /\ plain_frame f = true).
    { apply in_app_or in Hs as [Q | Q]; [eapply channel_sids; exact Q |]. destruct (ended a); [destruct Q as [<- | []]; split; reflexivity | destruct Q]. }
    destruct X as (-> & P). split; [exact P |]. exact (ci_ids _ _ _ C _ _ Ea).
  - destruct (serves_reached _ _ _ H) as (R1 & R2 & R3). destruct (nth_error (k_serves s) j) as [v |] eqn:Ev; [| apply nth_error_None in Ev; rewrite (R3 _ Ev) in Hs; destruct Hs].
    exists (v_kind v), (v_sid v), (v_data v). split; [rewrite <- R1, nth_error_map, Ev; reflexivity |]. destruct (serve_prefix _ _ (R2 _ _ Ev)) as (c & Ec).
    apply (owed_sids (v_kind v) (v_sid v) (u_fed (v_src v)) (u_live (v_src v))). rewrite Ec. apply in_or_app. left. exact Hs.
  - pose proof (reply_reached _ _ _ H L) as F. rewrite Forall_forall in F. apply F. exact Hs.
Qed.

(** The openings of a history. *)
Lemma events_open : forall ms id k i k' h sid, In (EOpen k' h sid) (events id k i ms) ->
  (exists c, c < calls ms /\ sid = if c =? 0 then id else (id + 2 * c) mod 2 ^ 32) \/ (h = ReqRC /\ exists r, In (EFrame (RRequestChannel r)) (events id k i ms) /\ rq_sid r = sid).
Proof.
  assert (STEP : forall ms id sid, (exists c, c < calls ms /\ sid = if c =? 0 then (id + 2) mod 2 ^ 32 else ((id + 2) mod 2 ^ 32 + 2 * c) mod 2 ^ 32) ->
    exists c, c < 1 + calls ms /\ sid = if c =? 0 then id else (id + 2 * c) mod 2 ^ 32).
  { intros ms id f (c & L & E). exists (1 + c). split; [lia |]. destruct (N.eqb_spec (1 + c) 0); [lia |]. rewrite E. change (2 ^ 32) with 4294967296. destruct (N.eqb_spec c 0) as [-> | Q]; [f_equal; lia |].
    rewrite N.add_mod_idemp_l by lia. f_equal. lia. }
  induction ms as [| m ms IH]; intros id k i k' h sid H; [destruct H |].
  assert (C : calls (m :: ms) = (if is_call m then 1 else 0) + calls ms) by (unfold calls; cbn [filter]; destruct (is_call m); unfold len; cbn [length]; lia). rewrite C.
  assert (Z : exists c, c < 1 + calls ms /\ id = if c =? 0 then id else (id + 2 * c) mod 2 ^ 32) by (exists 0; split; [lia | reflexivity]).
  destruct m as [c [d mm] | | i0 x | i0 | k0 | i0 | j | j x | j | f]; cbn [events is_call] in *; try change (0 + calls ms) with (calls ms); try (eapply IH; exact H).
  - destruct c.
    + destruct (IH _ _ _ _ _ _ H) as [E | (Eh & r & Er & Es)]; [left; apply STEP; exact E | right; eauto].
    + destruct H as [H | H]; [left; injection H as <- <- <-; exact Z |]. destruct (IH _ _ _ _ _ _ H) as [E | (Eh & r & Er & Es)]; [left; apply STEP; exact E |]. right. split; [exact Eh |]. exists r. split; [right; exact Er | exact Es].
    + destruct H as [H | H]; [left; injection H as <- <- <-; exact Z |]. destruct (IH _ _ _ _ _ _ H) as [E | (Eh & r & Er & Es)]; [left; apply STEP; exact E |]. right. split; [exact Eh |]. exists r. split; [right; exact Er | exact Es].
  - destruct H as [H | [H | H]]; [left; injection H as <- <- <-; exact Z | discriminate |]. destruct (IH _ _ _ _ _ _ H) as [E | (Eh & r & Er & Es)]; [left; apply STEP; exact E |]. right. split; [exact Eh |]. exists r. split; [right; right; exact Er | exact Es].
  - destruct H as [H | H]; [discriminate |]. destruct (IH _ _ _ _ _ _ H) as [E | (Eh & r & Er & Es)]; [left; exact E |]. right. split; [exact Eh |]. exists r. split; [right; exact Er | exact Es].
  - destruct H as [H | H]; [discriminate |].
    assert (K : forall k0, In (EOpen k' h sid) (events id k0 i ms) -> (forall e, In e (events id k0 i ms) -> In e (match f with RRequestChannel q => EOpen k ReqRC (rq_sid q) :: events id (S k) i ms | _ => events id k i ms end)) ->
      (exists c, c < calls ms /\ sid = if c =? 0 then id else (id + 2 * c) mod 2 ^ 32) \/ (h = ReqRC /\ exists r, In (EFrame (RRequestChannel r)) (EFrame f :: match f with RRequestChannel q => EOpen k ReqRC (rq_sid q) :: events id (S k) i ms | _ => events id k i ms end) /\ rq_sid r = sid)).
    { intros k0 Q S. destruct (IH _ _ _ _ _ _ Q) as [E | (Eh & r & Er & Es)]; [left; exact E |]. right. split; [exact Eh |]. exists r. split; [right; apply S; exact Er | exact Es]. }
    destruct f; try (apply (K k); [exact H | auto]).
    destruct H as [H | H]; [injection H as <- <- <-; right; split; [reflexivity |]; eexists; split; [left; reflexivity | reflexivity] |]. apply (K (S k)); [exact H | right; assumption].
Qed.
Lemma hist_open : forall sd ms s k h sid, k_moves (new_sock sd) ms = Some s -> In (EOpen k h sid) (k_hist s) ->
  (exists c, c < calls ms /\ sid = nth_id sd c) \/ (h = ReqRC /\ exists r, In (EFrame (RRequestChannel r)) (k_hist s) /\ rq_sid r = sid).
Proof.
  intros sd ms s k h sid H Hi. rewrite (hist_reached _ _ _ H) in Hi |- *. destruct (events_open _ _ _ _ _ _ _ Hi) as [(c & L & E) | X]; [left | right; exact X].
  exists c. split; [exact L |]. rewrite E. unfold nth_id. destruct (N.eqb_spec c 0) as [-> | Q]; [destruct sd; reflexivity | reflexivity].
Qed.

(** Each id is requested once. *)
Definition asked (s : sock) : list N := map sid_of (filter is_request (map snd (k_out s))).
Definition asked_inv (sd : sside) (n : N) (s : sock) : Prop :=
  NoDup (asked s) /\ (forall x, In x (asked s) -> exists c, c < n /\ x = nth_id sd c) /\ (forall i a, nth_error (k_callers s) i = Some a -> a_first a = true -> ~ In (a_sid a) (asked s)).
Lemma asked_more : forall s s' l, k_out s' = k_out s ++ l -> asked s' = asked s ++ map sid_of (filter is_request (map snd l)).
Proof. intros s s' l E. unfold asked. rewrite E, map_app, filter_app, map_app. reflexivity. Qed.
Lemma nodup_snoc : forall (l : list N) x, NoDup l -> ~ In x l -> NoDup (l ++ [x]).
Proof.
  induction l as [| y l IH]; intros x D Q; [constructor; [intros [] | constructor] |]. inversion D as [| y' l' Ny D' E]; subst. cbn [app]. constructor.
  - intro Hy. apply in_app_or in Hy as [Hy | [Hy | []]]; [exact (Ny Hy) |]. apply Q. left. auto.
  - apply IH; [exact D' |]. intro Hx. apply Q. right. exact Hx.
Qed.
Lemma asked_same : forall sd n n' s s', asked_inv sd n s -> n <= n' -> asked s' = asked s ->
  (forall i a, nth_error (k_callers s') i = Some a -> a_first a = true -> (exists b, nth_error (k_callers s) i = Some b /\ a_sid b = a_sid a /\ a_first b = true) \/ (a_sid a = nth_id sd n /\ n < 2 ^ 31)) -> asked_inv sd n' s'.
Proof.
  intros sd n n' s s' (A1 & A2 & A3) L E Q. unfold asked_inv. rewrite E. split; [exact A1 |]. split.
  - intros x Hx. destruct (A2 _ Hx) as (c & Lc & ->). exists c. split; [lia | reflexivity].
  - intros i a Ea F Hx. destruct (Q _ _ Ea F) as [(b & Eb & Sb & Fb) | (Sa & B)].
    + apply (A3 _ _ Eb Fb). congruence.
    + destruct (A2 _ Hx) as (c & Lc & Ec). rewrite Ec in Sa. apply nth_id_inj in Sa; lia.
Qed.
Lemma reply_not_request : forall h f, reply_ok h f -> is_request f = false.
Proof. intros h f [(? & ? & ? & -> & _) | [(? & -> & _) | (? & ? & -> & _)]]; reflexivity. Qed.
Lemma asked_none : forall s s' l, k_out s' = k_out s ++ l -> Forall (fun x => is_request (snd x) = false) l -> asked s' = asked s.
Proof.
  intros s s' l E F. rewrite (asked_more _ _ _ E). assert (X : filter is_request (map snd l) = []).
  { clear E. induction F as [| x l0 Q F IH]; [reflexivity |]. cbn [map filter]. rewrite Q. exact IH. }
  rewrite X. cbn [map]. apply app_nil_r.
Qed.

Lemma step_frames : forall v v' l, serve_step v = Some (v', l) -> forall f, In f l -> is_request f = false.
Proof.
  intros [kind sid data started u over] v' l H f Hf. unfold serve_step in H. cbn [v_kind v_sid v_data v_started v_src v_over] in *. destruct over; [discriminate |].
  assert (ST : negb started = false -> match next_of u with
      | None => None
      | Some None => Some (mkServe kind sid data true u true, [complete_frame sid])
      | Some (Some x) => Some (mkServe kind sid data true (read_one u) false, [match x with SOk p => payload_frame sid p FLAG_NEXT | SErr e => app_error sid e | SComplete => complete_frame sid end])
      end = Some (v', l) -> is_request f = false).
  { intros _ Q. destruct (next_of u) as [[x |] |]; [| | discriminate]; injection Q as _ <-; destruct Hf as [<- | []]; [destruct x as [[d m] | e |] |]; reflexivity. }
  destruct kind.
  - destruct (nth_error (u_fed u) (u_pos u)) as [[[d m] | e |] |]; try discriminate; injection H as _ <-; destruct Hf as [<- | []]; reflexivity.
  - destruct (nth_error (u_fed u) (u_pos u)) as [[p | e |] |]; try discriminate; injection H as _ <-; [destruct Hf |]. destruct Hf as [<- | []]; reflexivity.
  - destruct started; cbn [negb] in *; [exact (ST eq_refl H) |]. injection H as _ <-. destruct Hf.
  - destruct started; cbn [negb] in *; [exact (ST eq_refl H) |]. injection H as _ <-. destruct Hf as [<- | []]. reflexivity.
Qed.

Lemma asked_put : forall sd n s s' i a a', asked_inv sd n s -> nth_error (k_callers s) i = Some a -> k_callers s' = put (k_callers s) i a' -> a_sid a' = a_sid a -> (a_first a' = true -> a_first a = true) ->
  asked s' = asked s -> asked_inv sd n s'.
Proof.
  intros sd n s s' i a a' V E Ec Es Ef Ea. apply (asked_same sd n n s s' V); [lia | exact Ea |]. intros j b Eb F. left. rewrite Ec, nth_put in Eb by (eapply nth_bound; exact E).
  destruct (Nat.eqb_spec j i) as [-> | Q]; [| eauto]. assert (b = a') by congruence. subst b. exists a. auto.
Qed.
Lemma asked_quiet : forall sd n n' s s', asked_inv sd n s -> n <= n' -> k_callers s' = k_callers s -> asked s' = asked s -> asked_inv sd n' s'.
Proof. intros sd n n' s s' V L Ec Ea. apply (asked_same sd n n' s s' V L Ea). intros i a E F. left. rewrite Ec in E. eauto. Qed.
Lemma asked_new : forall sd n s s' x, asked_inv sd n s -> asked s' = asked s ++ [x] -> ~ In x (asked s) -> (exists c, c < n /\ x = nth_id sd c) ->
  (forall i a, nth_error (k_callers s') i = Some a -> a_first a = true -> a_sid a <> x /\ exists b, nth_error (k_callers s) i = Some b /\ a_sid b = a_sid a /\ a_first b = true) -> asked_inv sd n s'.
Proof.
  intros sd n s s' x (A1 & A2 & A3) E Q X C. unfold asked_inv. rewrite E. split; [apply nodup_snoc; assumption |]. split.
  - intros y Hy. apply in_app_or in Hy as [Hy | [<- | []]]; [exact (A2 _ Hy) | exact X].
  - intros i a Ea F Hy. destruct (C _ _ Ea F) as (Qx & b & Eb & Sb & Fb). apply in_app_or in Hy as [Hy | [Hy | []]]; [| congruence]. apply (A3 _ _ Eb Fb). congruence.
Qed.

Lemma asked_move : forall sd n s m s', callers_inv sd n s -> asked_inv sd n s -> k_next s = nth_id sd n -> (is_call m = true -> n < 2 ^ 31) -> n <= 2 ^ 31 -> k_move s m = Some s' -> asked_inv sd (n + if is_call m then 1 else 0) s'.
Proof.
  intros sd n s m s' CI V Hn L L' H.
  assert (FRESH : n < 2 ^ 31 -> ~ In (nth_id sd n) (asked s)).
  { intros B Q. destruct V as (_ & A2 & _). destruct (A2 _ Q) as (c & Lc & Ec). apply nth_id_inj in Ec; lia. }
  assert (FREEC : n < 2 ^ 31 -> forall i a, nth_error (k_callers s) i = Some a -> a_sid a <> nth_id sd n).
  { intros B i a Ea Q. destruct (ci_ids _ _ _ CI _ _ Ea) as (c & Lc & Ec). rewrite Ec in Q. apply nth_id_inj in Q; lia. }
  destruct m as [c p | | i x | i | k | i | j | j x | j | f]; cbn [k_move is_call] in *; rewrite ?N.add_0_r.
  - injection H as <-. specialize (L eq_refl). apply (asked_new sd (n + 1) s _ (nth_id sd n)).
    + apply (asked_quiet sd n (n + 1) s s V); [lia | reflexivity | reflexivity].
    + rewrite <- Hn. destruct c; (erewrite (asked_more s) by reflexivity; reflexivity).
    + exact (FRESH L).
    + exists n. split; [lia | reflexivity].
    + intros i a Ea F. assert (Ea' : nth_error (k_callers s) i = Some a) by (destruct c; exact Ea). split; [exact (FREEC L _ _ Ea') | eauto].
  - injection H as <-. specialize (L eq_refl). apply (asked_same sd n (n + 1) s _ V); [lia | reflexivity |]. intros i a Ea F. cbn in Ea. rewrite nth_snoc in Ea.
    destruct (Nat.eqb_spec i (length (k_callers s))) as [-> | Q]; [right; split; [| exact L] | left; eauto]. injection Ea as <-. exact Hn.
  - destruct (nth_error (k_callers s) i) as [a |] eqn:E; [| discriminate]. destruct (u_live (a_in a)); [| discriminate]. injection H as <-. eapply asked_put; [exact V | exact E | reflexivity | reflexivity | auto | reflexivity].
  - destruct (nth_error (k_callers s) i) as [a |] eqn:E; [| discriminate]. injection H as <-. eapply asked_put; [exact V | exact E | reflexivity | reflexivity | auto | reflexivity].
  - destruct (nth_error (k_ports s) k) as [o |]; [| discriminate]. injection H as <-. apply (asked_quiet sd n n s _ V); [lia | reflexivity | reflexivity].
  - unfold caller_step in H. destruct (nth_error (k_callers s) i) as [a |] eqn:E; [| discriminate].
    assert (EN : asked_inv sd n (caller_end s i a)).
    { eapply asked_put; [exact V | exact E | reflexivity | reflexivity | auto |]. apply (asked_none s _ [(ByCaller i, complete_frame (a_sid a))]); [reflexivity | constructor; [reflexivity | constructor]]. }
    destruct (a_phase a); [| | discriminate].
    + destruct (next_of (a_in a)) as [[x |] |]; [| injection H as <-; exact EN | discriminate]. destruct (a_n a =? 0); [discriminate |]. destruct x as [[d mm] | e |].
      * injection H as <-. destruct (a_first a) eqn:F1.
        -- eapply (asked_new sd n s _ (a_sid a) V).
           ++ erewrite (asked_more s) by reflexivity. reflexivity.
           ++ destruct V as (_ & _ & A3). exact (A3 _ _ E F1).
           ++ exact (ci_ids _ _ _ CI _ _ E).
           ++ intros i' b Eb F. cbn [send with_callers k_callers] in Eb. rewrite nth_put in Eb by (eapply nth_bound; exact E). destruct (Nat.eqb_spec i' i) as [-> | Q]; [injection Eb as <-; discriminate F |].
              split; [| eauto]. intro S. apply Q. exact (ci_once _ _ _ CI _ _ _ _ Eb E S).
        -- eapply asked_put; [exact V | exact E | reflexivity | reflexivity | cbn; congruence |]. eapply (asked_none s _ [(ByCaller i, _)]); [reflexivity | constructor; [reflexivity | constructor]].
      * injection H as <-. eapply asked_put; [exact V | exact E | reflexivity | reflexivity | auto |]. eapply (asked_none s _ [(ByCaller i, _)]); [reflexivity | constructor; [reflexivity | constructor]].
      * injection H as <-. eapply asked_put; [exact V | exact E | reflexivity | reflexivity | auto |]. eapply (asked_none s _ [(ByCaller i, _)]); [reflexivity | constructor; [reflexivity | constructor]].
    + destruct (nth_error (a_grants a) (a_used a)); [injection H as <-; eapply asked_put; [exact V | exact E | reflexivity | reflexivity | auto | reflexivity] |].
      destruct (m_get (a_sid a) (k_channels s)) as [i' |]; [destruct (Nat.eqb i' i); [discriminate |] |]; injection H as <-; exact EN.
  - destruct (nth_error (k_serves s) j) as [v |]; [| discriminate]. destruct (serve_step v) as [[v' l] |] eqn:Es; [| discriminate]. injection H as <-.
    destruct (sends_fields j l (with_serves s (put (k_serves s) j v'))) as (_ & _ & _ & _ & F1 & _ & _ & F2). cbv zeta in *. apply (asked_quiet sd n n s _ V); [lia | exact F1 |].
    eapply asked_none; [exact F2 |]. apply Forall_forall. intros [au f] Hf. apply in_map_iff in Hf as (g & Eg & Hg). injection Eg as _ <-. exact (step_frames _ _ _ Es _ Hg).
  - destruct (nth_error (k_serves s) j) as [v |]; [| discriminate]. destruct (may_feed v x); [| discriminate]. injection H as <-. apply (asked_quiet sd n n s _ V); [lia | reflexivity | reflexivity].
  - destruct (nth_error (k_serves s) j) as [v |]; [| discriminate]. destruct (v_started v); [| discriminate]. injection H as <-. apply (asked_quiet sd n n s _ V); [lia | reflexivity | reflexivity].
  - unfold process_once in H. destruct f as [p | sid | sid code data | sid g | r | r | r | r].
    + injection H as <-. destruct (on_payload_fields (with_hist s (EFrame (RPayloadFrame p))) p) as (_ & _ & F2 & _ & _ & F). apply (asked_quiet sd n n s _ V); [lia | exact F2 |].
      destruct F as [F | (F & _)]; [unfold asked; rewrite F; reflexivity |]. eapply asked_none; [exact F | constructor; [reflexivity | constructor]].
    + destruct (on_cancel_fields _ _ _ H) as (_ & _ & F2 & _ & _ & F). apply (asked_quiet sd n n s _ V); [lia | exact F2 | unfold asked; rewrite F; reflexivity].
    + destruct (on_error_fields _ _ _ _ _ H) as (_ & _ & F2 & _ & _ & F). apply (asked_quiet sd n n s _ V); [lia | exact F2 | unfold asked; rewrite F; reflexivity].
    + injection H as <-. unfold on_request_n.
      assert (ER : forall msg, asked_inv sd n (send (with_hist s (EFrame (RRequestN sid g))) ByFrame (app_error sid msg))).
      { intro msg. apply (asked_quiet sd n n s _ V); [lia | reflexivity |]. eapply (asked_none s _ [(ByFrame, _)]); [reflexivity | constructor; [reflexivity | constructor]]. }
      destruct (g =? 0); [apply ER |]. destruct (m_get sid _) as [i |]; [| apply ER]. destruct (nth_error _ i) as [a |] eqn:E; [| apply (asked_quiet sd n n s _ V); [lia | reflexivity | reflexivity]].
      destruct (a_phase a); [| | apply ER]; (eapply asked_put; [exact V | exact E | reflexivity | reflexivity | auto | reflexivity]).
    + injection H as <-. apply (asked_quiet sd n n s _ V); [lia | reflexivity | reflexivity].
    + injection H as <-. apply (asked_quiet sd n n s _ V); [lia | reflexivity | reflexivity].
    + injection H as <-. apply (asked_quiet sd n n s _ V); [lia | reflexivity | reflexivity].
    + injection H as <-. apply (asked_quiet sd n n s _ V); [lia | reflexivity | reflexivity].
Qed.
Lemma asked_reached : forall sd ms s, k_moves (new_sock sd) ms = Some s -> calls ms <= 2 ^ 31 -> asked_inv sd (calls ms) s.
Proof.
  intros sd ms s H.
  enough (X : k_moves (new_sock sd) ms = Some s /\ (calls ms <= 2 ^ 31 -> asked_inv sd (calls ms) s)) by apply X.
  revert ms s H. apply (k_moves_ind (fun ms s => k_moves (new_sock sd) ms = Some s /\ (calls ms <= 2 ^ 31 -> asked_inv sd (calls ms) s))).
  - split; [reflexivity |]. intros _. split; [constructor |]. split; [intros x [] | intros i a E; destruct i; discriminate].
  - intros ms s m s' (I1 & I2) H. split; [rewrite k_moves_app, I1; cbn [k_moves]; rewrite H; reflexivity |]. intro L. rewrite calls_snoc in *.
    apply (asked_move sd _ s m s'); [apply (callers_reached _ _ _ I1); lia | apply I2; lia | exact (proj1 (next_reached _ _ _ I1)) | intro C; rewrite C in L; lia | lia | exact H].
Qed.

(** ** Half of a pair *)

Lemma nf_snoc : forall l m, filter not_frame (l ++ [m]) = filter not_frame l ++ if not_frame m then [m] else [].
Proof. intros. rewrite filter_app. cbn [filter]. destruct (not_frame m); reflexivity. Qed.
Lemma calls_nf : forall l, calls (filter not_frame l) = calls l.
Proof.
  induction l as [| m l IH]; [reflexivity |]. unfold calls, len in *. cbn [filter]. destruct m; cbn [not_frame filter is_call length]; try exact IH; lia.
Qed.
Lemma hist_one : forall s m s', k_move s m = Some s' -> k_hist s' = k_hist s ++ events (k_next s) (length (k_ports s)) (length (k_callers s)) [m].
Proof.
  intros s m s' H. destruct (hist_move _ _ _ H []) as (E & (l & L)). rewrite E, L. cbn [events]. rewrite app_nil_r. rewrite skipn_app, Nat.sub_diag, skipn_all. reflexivity.
Qed.

Definition timely (sd : sside) (h : list event) : Prop :=
  forall before after k kd sid, h = before ++ EOpen k kd sid :: after -> own sd sid -> (forall f, In f (frames before) -> sid_of f <> sid) /\ displaced sid after = false.
Record half (sd : sside) (ms kms : list kmove) (s t : sock) (d : nat) : Prop := {
  hf_run : k_moves (new_sock sd) kms = Some s;
  hf_ms : filter not_frame kms = ms;
  hf_d : (d <= length (k_out t))%nat;
  hf_frames : frames (k_hist s) = map snd (firstn d (k_out t));
  hf_time : timely sd (k_hist s) }.
Definition apart (sd sd' : sside) : Prop := forall x, own sd x -> own sd' x -> False.
Lemma apart_other : forall sd, apart sd (other sd) /\ apart (other sd) sd.
Proof. intro sd. split; [intros x A B; exact (own_other _ _ A B) | intros x B A; exact (own_other _ _ A B)]. Qed.

Lemma frames_in : forall h f, In f (frames h) <-> In (EFrame f) h.
Proof.
  intros h f. unfold frames. rewrite in_flat_map. split.
  - intros (e & He & Hf). destruct e; try destruct Hf as [<- | []]; try contradiction. exact He.
  - intro H. exists (EFrame f). split; [exact H | left; reflexivity].
Qed.
Lemma in_firstn : forall A n (l : list A) x, In x (firstn n l) -> In x l.
Proof. intros A n l x H. rewrite <- (firstn_skipn n l). apply in_or_app. left. exact H. Qed.
Lemma from_other : forall sd ms kms s t d f, half sd ms kms s t d -> In (EFrame f) (k_hist s) -> exists au, In (au, f) (k_out t).
Proof.
  intros sd ms kms s t d f V H. apply frames_in in H. rewrite (hf_frames _ _ _ _ _ _ V) in H. apply in_map_iff in H as ((au, g) & E & Hg). cbn [snd] in E. subst g. exists au. eapply in_firstn. exact Hg.
Qed.

Section Halves.
Variables (sdA sdB : sside) (mA kA mB kB : list kmove) (a b : sock) (dA dB : nat).
Hypothesis AB : apart sdA sdB.
Hypothesis HA : half sdA mA kA a b dA.
Hypothesis HB : half sdB mB kB b a dB.
Hypothesis LA : calls kA <= 2 ^ 31.
Hypothesis LB : calls kB <= 2 ^ 31.

Lemma request_ids : forall f, In (EFrame f) (k_hist b) -> is_request f = true -> exists c, c < calls kA /\ sid_of f = nth_id sdA c.
Proof.
  intros f H R. destruct (from_other _ _ _ _ _ _ _ HB H) as (au & Hau). pose proof (authors _ _ _ _ _ (hf_run _ _ _ _ _ _ HA) LA Hau) as X. destruct au.
  - exact (proj2 X). - exact (proj2 X).
  - destruct X as (v & sid & p & _ & (_ & Q & _)). congruence.
  - apply reply_not_request in X. congruence.
Qed.
Lemma received_in : forall h v sid p, In (v, sid, p) (received h) -> exists f, In (EFrame f) h /\ is_request f = true /\ sid_of f = sid /\ (v = VChannel -> exists r, f = RRequestChannel r).
Proof.
  intros h v sid p H. unfold received in H. apply in_flat_map in H as (e & He & Hr). destruct e as [| | f |]; try contradiction. destruct f; cbn [request_in] in Hr; try contradiction; destruct Hr as [Hr | []]; injection Hr as <- <- <-;
    (eexists; split; [exact He |]; split; [reflexivity |]; split; [reflexivity |]; intro Q; first [discriminate Q | eexists; reflexivity]).
Qed.
Lemma received_ids : forall v sid p, In (v, sid, p) (received (k_hist b)) -> exists c, c < calls kA /\ sid = nth_id sdA c.
Proof. intros v sid p H. destruct (received_in _ _ _ _ H) as (f & Hf & R & <- & _). exact (request_ids _ Hf R). Qed.
End Halves.

Section Out.
Variables (sdA sdB : sside) (mA kA mB kB : list kmove) (a b : sock) (dA dB : nat).
Hypothesis AB : apart sdA sdB.
Hypothesis HA : half sdA mA kA a b dA.
Hypothesis HB : half sdB mB kB b a dB.
Hypothesis LA : calls kA <= 2 ^ 31.
Hypothesis LB : calls kB <= 2 ^ 31.

Lemma credit_ids : forall sid n, In (EFrame (RRequestN sid n)) (k_hist b) -> n = 0x7fffffff /\ exists c, c < calls kB /\ sid = nth_id sdB c.
Proof.
  intros sid n H. destruct (from_other _ _ _ _ _ _ _ HB H) as (au & Hau). pose proof (authors _ _ _ _ _ (hf_run _ _ _ _ _ _ HA) LA Hau) as X. destruct au.
  - destruct X as (X & _). discriminate X. - destruct X as (X & _). discriminate X.
  - destruct X as (v & sid' & p & E & (Es & _ & _ & En)). cbn in Es. subst sid'. split; [apply En; reflexivity |].
    apply nth_error_In in E. exact (received_ids _ _ _ _ _ _ _ _ _ _ HB HA LB _ _ _ E).
  - destruct X as [(? & ? & ? & Q & _) | [(? & Q & _) | (? & ? & Q & _)]]; discriminate Q.
Qed.

Lemma open_ids : forall k h sid, In (EOpen k h sid) (k_hist b) -> (exists c, c < calls kB /\ sid = nth_id sdB c) \/
  (h = ReqRC /\ (exists r, In (EFrame (RRequestChannel r)) (k_hist b) /\ rq_sid r = sid) /\ exists c, c < calls kA /\ sid = nth_id sdA c).
Proof.
  intros k h sid H. destruct (hist_open _ _ _ _ _ _ (hf_run _ _ _ _ _ _ HB) H) as [E | (Eh & r & Er & Es)]; [left; exact E | right]. split; [exact Eh |]. split; [eauto |].
  destruct (request_ids _ _ _ _ _ _ _ _ _ _ HA HB LA _ Er eq_refl) as (c & Lc & Ec). exists c. split; [exact Lc |]. rewrite <- Es. exact Ec.
Qed.

Lemma out_ids : forall au f, In (au, f) (k_out b) -> (exists c, c < calls kB /\ sid_of f = nth_id sdB c) \/ (exists c, c < calls kA /\ sid_of f = nth_id sdA c).
Proof.
  intros au f H. pose proof (authors _ _ _ _ _ (hf_run _ _ _ _ _ _ HB) LB H) as X. destruct au.
  - left. exact (proj2 X). - left. exact (proj2 X).
  - destruct X as (v & sid & p & E & (Es & _)). right. rewrite Es. apply nth_error_In in E. exact (received_ids _ _ _ _ _ _ _ _ _ _ HA HB LA _ _ _ E).
  - destruct X as [(sid & k & h & -> & _ & Ho & _) | [(sid & -> & Q) | (sid & n & -> & _ & Q)]]; cbn [RustStreamModel.rframe_sid].
    + destruct (open_ids _ _ _ Ho) as [E | (_ & _ & E)]; [left | right]; exact E.
    + destruct (credit_ids _ _ Q) as (Z & _). discriminate Z.
    + left. apply (credit_ids _ _ Q).
Qed.
End Out.

(** ** Steps *)

Lemma frames_app : forall x y, frames (x ++ y) = frames x ++ frames y.
Proof. intros. apply flat_map_app. Qed.
Lemma timely_snoc : forall sd h e, timely sd h ->
  (forall k kd x, e = EOpen k kd x -> own sd x -> (forall f, In f (frames h) -> sid_of f <> x) /\ (forall k' kd' y, In (EOpen k' kd' y) h -> y <> x)) -> timely sd (h ++ [e]).
Proof.
  intros sd h e T C before after k kd sid E O.
  destruct (@exists_last _ (EOpen k kd sid :: after)) as (l & z & El); [discriminate |]. assert (E' : h ++ [e] = (before ++ l) ++ [z]) by (rewrite E, El, app_assoc; reflexivity).
  apply app_inj_tail in E' as (E1 & E2). subst z. destruct l as [| y l].
  - cbn [app] in El. injection El as Ee ->. rewrite app_nil_r in E1. subst before. split; [| reflexivity]. apply (C k kd sid); [symmetry; exact Ee | exact O].
  - cbn [app] in El. injection El as <- ->. destruct (T _ _ _ _ _ E1 O) as (T1 & T2). split; [exact T1 |]. rewrite displaced_app, T2. cbn [displaced existsb orb]. rewrite orb_false_r.
    destruct e as [k' kd' x | | |]; try reflexivity. destruct (N.eqb_spec x sid) as [-> | Q]; [| reflexivity]. exfalso. destruct (C _ _ _ eq_refl O) as (_ & C2).
    apply (C2 k kd sid); [| reflexivity]. rewrite E1. apply in_or_app. right. left. reflexivity.
Qed.

Lemma half_out : forall sd ms kms s t t' d l, half sd ms kms s t d -> k_out t' = k_out t ++ l -> half sd ms kms s t' d.
Proof.
  intros sd ms kms s t t' d l [R M D F T] E. apply Build_half; try assumption.
  - rewrite E, app_length. lia.
  - rewrite E, firstn_app. replace (d - length (k_out t))%nat with 0%nat by lia. cbn [firstn]. rewrite app_nil_r. exact F.
Qed.
Lemma run_snoc : forall sd kms s m s', k_moves (new_sock sd) kms = Some s -> k_move s m = Some s' -> k_moves (new_sock sd) (kms ++ [m]) = Some s'.
Proof. intros sd kms s m s' R H. rewrite k_moves_app, R. cbn [k_moves]. rewrite H. reflexivity. Qed.

Section Step.
Variables (sdA sdB : sside) (mA kA mB kB : list kmove) (a b : sock) (dA dB : nat).
Hypothesis AB : apart sdA sdB.
Hypothesis HA : half sdA mA kA a b dA.
Hypothesis HB : half sdB mB kB b a dB.
Hypothesis LB : calls kB <= 2 ^ 31.

Lemma fresh_id : calls kA < 2 ^ 31 -> (forall f, In f (frames (k_hist a)) -> sid_of f <> nth_id sdA (calls kA)) /\ (forall k kd y, In (EOpen k kd y) (k_hist a) -> y <> nth_id sdA (calls kA)).
Proof.
  intro L. assert (LA : calls kA <= 2 ^ 31) by lia.
  assert (Z : forall x, (exists c, c < calls kB /\ x = nth_id sdB c) \/ (exists c, c < calls kA /\ x = nth_id sdA c) -> x <> nth_id sdA (calls kA)).
  { intros x [(c & Lc & ->) | (c & Lc & ->)] Q.
    - apply (AB (nth_id sdB c)); [rewrite Q |]; apply nth_id_own.
    - apply nth_id_inj in Q; lia. }
  split.
  - intros f Hf. apply frames_in in Hf. destruct (from_other _ _ _ _ _ _ _ HA Hf) as (au & Hau). apply Z. exact (out_ids _ _ _ _ _ _ _ _ _ _ HA HB LA LB _ _ Hau).
  - intros k kd y Hy. apply Z. destruct (open_ids _ _ _ _ _ _ _ _ _ _ HB HA LB _ _ _ Hy) as [E | (_ & _ & E)]; [right | left]; exact E.
Qed.

Lemma half_local : forall m a', k_move a m = Some a' -> not_frame m = true -> calls (kA ++ [m]) <= 2 ^ 31 -> half sdA (mA ++ [m]) (kA ++ [m]) a' b dA.
Proof.
  intros m a' H Q L. pose proof HA as HA'. destruct HA' as [R M D F T]. pose proof (hist_one _ _ _ H) as Eh. destruct (next_reached _ _ _ R) as (Hn & _).
  assert (X : frames (k_hist a') = frames (k_hist a) /\ timely sdA (k_hist a')).
  { rewrite Eh, frames_app, Hn. rewrite calls_snoc in L.
    assert (N1 : forall kd rest, is_call m = true -> (forall k' kd' x, ~ In (EOpen k' kd' x) rest) -> (length rest <= 1)%nat -> timely sdA (k_hist a ++ EOpen (length (k_ports a)) kd (nth_id sdA (calls kA)) :: rest)).
    { intros kd rest C Nr Lr. rewrite C in L. assert (Z : timely sdA (k_hist a ++ [EOpen (length (k_ports a)) kd (nth_id sdA (calls kA))])).
      { apply timely_snoc; [exact T |]. intros k kd' x E _. injection E as _ _ <-. apply fresh_id. lia. }
      destruct rest as [| e [| e' rest]]; [exact Z | | cbn in Lr; lia]. change (EOpen (length (k_ports a)) kd (nth_id sdA (calls kA)) :: [e]) with ([EOpen (length (k_ports a)) kd (nth_id sdA (calls kA))] ++ [e]).
      rewrite app_assoc. apply timely_snoc; [exact Z |]. intros k kd' x -> _. exfalso. apply (Nr k kd' x). left. reflexivity. }
    destruct m as [c p | | i x | i | k | i | j | j x | j | f]; cbn [events]; try (cbn [frames flat_map]; rewrite !app_nil_r; split; [reflexivity | exact T]).
    - destruct c; cbn [frames flat_map app]; rewrite ?app_nil_r; (split; [reflexivity |]); [exact T | |]; (apply N1; [reflexivity | intros ? ? ? [] | apply Nat.le_0_l]).
    - cbn [frames flat_map app]. rewrite app_nil_r. split; [reflexivity |]. apply N1; [reflexivity | intros ? ? ? [Z | []]; discriminate Z | apply le_n].
    - cbn [frames flat_map app]. rewrite app_nil_r. split; [reflexivity |]. apply timely_snoc; [exact T |]. intros ? ? ? Z. discriminate Z.
    - discriminate Q. }
  destruct X as (X1 & X2). apply Build_half.
  - eapply run_snoc; eassumption.
  - rewrite nf_snoc, Q, M. reflexivity.
  - exact D.
  - rewrite X1. exact F.
  - exact X2.
Qed.
Lemma half_frame : forall au f a', calls kA <= 2 ^ 31 -> nth_error (k_out b) dA = Some (au, f) -> k_move a (KFrame f) = Some a' -> half sdA mA (kA ++ [KFrame f]) a' b (S dA).
Proof.
  intros au f a' LA E H. pose proof HA as HA'. destruct HA' as [R M D F T]. pose proof (hist_one _ _ _ H) as Eh.
  assert (X : frames (k_hist a') = frames (k_hist a) ++ [f] /\ timely sdA (k_hist a')).
  { rewrite Eh, frames_app. assert (Z : timely sdA (k_hist a ++ [EFrame f])) by (apply timely_snoc; [exact T | intros ? ? ? Q; discriminate Q]).
    cbn [events]. destruct f as [p | sid | sid code data | sid n | r | r | r | r]; try (split; [reflexivity | exact Z]). split; [reflexivity |].
    change (EFrame (RRequestChannel r) :: [EOpen (length (k_ports a)) ReqRC (rq_sid r)]) with ([EFrame (RRequestChannel r)] ++ [EOpen (length (k_ports a)) ReqRC (rq_sid r)]). rewrite app_assoc.
    apply timely_snoc; [exact Z |]. intros k kd x Q O. injection Q as <- <- <-. exfalso.
    pose proof (authors _ _ _ _ _ (hf_run _ _ _ _ _ _ HB) LB (nth_error_In _ _ E)) as X. destruct au.
    - destruct X as (_ & c & _ & Ec). apply (AB (nth_id sdB c)); [rewrite <- Ec; exact O | apply nth_id_own].
    - destruct X as (_ & c & _ & Ec). apply (AB (nth_id sdB c)); [rewrite <- Ec; exact O | apply nth_id_own].
    - destruct X as (v & sid & p & _ & (_ & Q & _)). discriminate Q.
    - apply reply_not_request in X. discriminate X. }
  destruct X as (X1 & X2). apply Build_half.
  - eapply run_snoc; eassumption.
  - rewrite nf_snoc, M. cbn [not_frame]. apply app_nil_r.
  - apply nth_bound in E. lia.
  - rewrite X1, F, (firstn_S_nth _ _ _ _ E), map_app. reflexivity.
  - exact X2.
Qed.
End Step.

Definition pair_inv (sd : sside) (ms : list pmove) (p : pair) : Prop :=
  exists kA kB, half sd (side_a ms) kA (p_a p) (p_b p) (p_da p) /\ half (other sd) (side_b ms) kB (p_b p) (p_a p) (p_db p).

Lemma p_moves_app : forall x p y, p_moves p (x ++ y) = match p_moves p x with Some p' => p_moves p' y | None => None end.
Proof. induction x as [| m x IH]; intros p y; [reflexivity |]. cbn [app p_moves]. destruct (p_move p m); [apply IH | reflexivity]. Qed.
Lemma p_moves_ind : forall (P : list pmove -> pair -> Prop) p0,
  P [] p0 -> (forall ms p m p', P ms p -> p_moves p0 ms = Some p -> p_move p m = Some p' -> P (ms ++ [m]) p') -> forall ms p, p_moves p0 ms = Some p -> P ms p.
Proof.
  intros P p0 H0 HS ms. induction ms as [| m ms IH] using rev_ind; intros p H; [injection H as <-; exact H0 |].
  rewrite p_moves_app in H. destruct (p_moves p0 ms) as [q |] eqn:E; [| discriminate]. cbn [p_moves] in H. destruct (p_move q m) as [q' |] eqn:Em; [| discriminate]. injection H as <-.
  eapply HS; [apply IH; reflexivity | exact E | exact Em].
Qed.
Lemma side_a_snoc : forall ms m, side_a (ms ++ [m]) = side_a ms ++ match m with PA m => [m] | _ => [] end.
Proof. intros. unfold side_a. rewrite flat_map_app. cbn [flat_map]. rewrite app_nil_r. reflexivity. Qed.
Lemma side_b_snoc : forall ms m, side_b (ms ++ [m]) = side_b ms ++ match m with PB m => [m] | _ => [] end.
Proof. intros. unfold side_b. rewrite flat_map_app. cbn [flat_map]. rewrite app_nil_r. reflexivity. Qed.
Lemma calls_le : forall x y, calls x <= calls (x ++ y).
Proof. intros x y. unfold calls, len. rewrite filter_app, app_length. lia. Qed.

Lemma pair_reached : forall sd ms p, p_moves (new_pair sd) ms = Some p -> few ms -> pair_inv sd ms p.
Proof.
  intros sd. apply (p_moves_ind (fun ms p => few ms -> pair_inv sd ms p)).
  - intros _. exists [], []. split; (apply Build_half; [reflexivity | reflexivity | apply le_n | reflexivity | intros b x k h sid E; destruct b; discriminate E]).
  - intros ms p m p' I _ H (FA & FB). rewrite side_a_snoc in FA. rewrite side_b_snoc in FB.
    destruct I as (kA & kB & HA & HB); [split; [eapply N.le_trans; [apply calls_le | exact FA] | eapply N.le_trans; [apply calls_le | exact FB]] |].
    destruct (apart_other sd) as (AB & BA). unfold pair_inv. rewrite side_a_snoc, side_b_snoc.
    assert (CA : calls kA = calls (side_a ms)) by (rewrite <- (hf_ms _ _ _ _ _ _ HA), calls_nf; reflexivity).
    assert (CB : calls kB = calls (side_b ms)) by (rewrite <- (hf_ms _ _ _ _ _ _ HB), calls_nf; reflexivity).
    pose proof (calls_le (side_a ms) (match m with PA m => [m] | _ => [] end)) as LA. pose proof (calls_le (side_b ms) (match m with PB m => [m] | _ => [] end)) as LB.
    destruct m as [m | m | |]; cbn [p_move] in H.
    + destruct (not_frame m) eqn:Q; [| discriminate]. destruct (k_move (p_a p) m) as [a' |] eqn:E; [| discriminate]. injection H as <-. cbn [p_a p_b p_da p_db].
      destruct (out_move _ _ _ E) as (l & El). exists (kA ++ [m]), kB. rewrite app_nil_r. split.
      * apply (half_local sd (other sd) _ kA _ kB (p_a p) (p_b p) _ _ AB HA HB); [lia | exact E | exact Q |]. rewrite calls_snoc in *. lia.
      * eapply half_out; [exact HB | exact El].
    + destruct (not_frame m) eqn:Q; [| discriminate]. destruct (k_move (p_b p) m) as [b' |] eqn:E; [| discriminate]. injection H as <-. cbn [p_a p_b p_da p_db].
      destruct (out_move _ _ _ E) as (l & El). exists kA, (kB ++ [m]). rewrite app_nil_r. split.
      * eapply half_out; [exact HA | exact El].
      * apply (half_local (other sd) sd _ kB _ kA (p_b p) (p_a p) _ _ BA HB HA); [lia | exact E | exact Q |]. rewrite calls_snoc in *. lia.
    + destruct (nth_error (k_out (p_b p)) (p_da p)) as [[au f] |] eqn:En; [| discriminate]. destruct (k_move (p_a p) (KFrame f)) as [a' |] eqn:E; [| discriminate]. injection H as <-. cbn [p_a p_b p_da p_db].
      destruct (out_move _ _ _ E) as (l & El). exists (kA ++ [KFrame f]), kB. rewrite !app_nil_r. split.
      * eapply (half_frame sd (other sd) _ kA _ kB (p_a p) (p_b p) _ _ AB HA HB); [lia | lia | exact En | exact E].
      * eapply half_out; [exact HB | exact El].
    + destruct (nth_error (k_out (p_a p)) (p_db p)) as [[au f] |] eqn:En; [| discriminate]. destruct (k_move (p_b p) (KFrame f)) as [b' |] eqn:E; [| discriminate]. injection H as <-. cbn [p_a p_b p_da p_db].
      destruct (out_move _ _ _ E) as (l & El). exists kA, (kB ++ [KFrame f]). rewrite !app_nil_r. split.
      * eapply half_out; [exact HA | exact El].
      * eapply (half_frame (other sd) sd _ kB _ kA (p_b p) (p_a p) _ _ BA HB HA); [lia | lia | exact En | exact E].
Qed.
