(** Proofs about what crosses between the two sockets of [RustPairModel], stream by stream. *)
From Coq Require Import List NArith ZArith Lia Bool ZifyBool ZifyNat ZifyN.
From Verif Require Import Base ProxyModel RustFramesModel RustSocketModel RustSocketSpec RustSocketProofs RustSocketCalls RustPairModel RustPairSpec RustPairProofs.
From Verif Require RustCallModel RustStreamModel.
Import ListNotations.
Open Scope N_scope.

(** ** Calls and what they leave *)

Definition idc (id : N) (c : nat) : N := if Nat.eqb c 0 then id else (id + 2 * N.of_nat c) mod 2 ^ 32.
Lemma idc_next : forall id c, idc ((id + 2) mod 2 ^ 32) c = idc id (S c).
Proof.
  intros id c. unfold idc. change (Nat.eqb (S c) 0) with false. cbn match. destruct (Nat.eqb_spec c 0) as [-> | Q]; change (2 ^ 32) with 4294967296; [f_equal; lia |]. rewrite N.add_mod_idemp_l by lia. f_equal. lia.
Qed.
Lemma idc_first : forall sd c, idc (first_id sd) c = nth_id sd (N.of_nat c).
Proof. intros sd c. unfold idc, nth_id. destruct (Nat.eqb_spec c 0) as [-> | Q]; [destruct sd; reflexivity | reflexivity]. Qed.
Definition request_of (k : ckind) (id : N) (p : pay) : rframe :=
  match k with
  | CFnF => RRequestFnF (mkRRequest TRequestFnf id (snd p) (fst p) false false 0)
  | CRR => RRequestResponse (mkRRequest TRequestResponse id (snd p) (fst p) false false 0)
  | CStream => RRequestStream (mkRRequest TRequestStream id (snd p) (fst p) false false 0)
  end.
Lemma requests_at : forall ms id f, In f (requests id ms) <-> exists c k p, nth_error (filter is_call ms) c = Some (KCall k p) /\ f = request_of k (idc id c) p.
Proof.
  induction ms as [| m ms IH]; intros id f.
  - split; [intros [] | intros (c & k & p & E & _); destruct c; discriminate].
  - assert (SH : forall g, (exists c k p, nth_error (filter is_call ms) c = Some (KCall k p) /\ g = request_of k (idc ((id + 2) mod 2 ^ 32) c) p) <->
                           (exists c k p, nth_error (filter is_call ms) c = Some (KCall k p) /\ g = request_of k (idc id (S c)) p)).
    { intro g. split; intros (c & k & p & E & Eg); exists c, k, p; (split; [exact E |]); rewrite idc_next in *; exact Eg. }
    destruct m as [k0 [d mm] | | | | | | | | |]; cbn [requests filter is_call]; try apply IH.
    + split.
      * intros [<- | H]; [exists 0%nat, k0, (d, mm); split; [reflexivity | destruct k0; reflexivity] |]. apply IH, SH in H as (c & k & p & E & Eg). exists (S c), k, p. auto.
      * intros ([| c] & k & p & E & Eg); [left; injection E as <- <-; subst f; destruct k0; reflexivity |]. right. apply IH, SH. exists c, k, p. auto.
    + rewrite IH, SH. split; [intros (c & k & p & E & Eg); exists (S c), k, p; auto | intros ([| c] & k & p & E & Eg); [discriminate |]; exists c, k, p; auto].
Qed.
Definition opens (m : kmove) : option hkind := match m with KCall CRR _ => Some ReqRR | KCall CStream _ => Some ReqRS | KChannel => Some ReqRC | _ => None end.
Lemma opens_at : forall ms id k i k' h sid, In (EOpen k' h sid) (events id k i ms) ->
  (exists c m, nth_error (filter is_call ms) c = Some m /\ sid = idc id c /\ opens m = Some h) \/ (h = ReqRC /\ exists r, In (EFrame (RRequestChannel r)) (events id k i ms) /\ rq_sid r = sid).
Proof.
  assert (STEP : forall ms id sid h m0, (exists c m, nth_error (filter is_call ms) c = Some m /\ sid = idc ((id + 2) mod 2 ^ 32) c /\ opens m = Some h) ->
    exists c m, nth_error (m0 :: filter is_call ms) c = Some m /\ sid = idc id c /\ opens m = Some h).
  { intros ms id sid h m0 (c & m & E & Es & O). exists (S c), m. rewrite <- idc_next. auto. }
  induction ms as [| m ms IH]; intros id k i k' h sid H; [destruct H |].
  destruct m as [c [d mm] | | i0 x | i0 | k0 | i0 | j | j x | j | f]; cbn [events filter is_call] in *; try (eapply IH; exact H).
  - destruct c.
    + destruct (IH _ _ _ _ _ _ H) as [E | (Eh & r & Er & Es)]; [left; apply STEP; exact E | right; eauto].
    + destruct H as [H | H]; [left; exists 0%nat; eexists; split; [reflexivity |]; injection H as <- <- <-; split; reflexivity |]. destruct (IH _ _ _ _ _ _ H) as [E | (Eh & r & Er & Es)]; [left; apply STEP; exact E |].
      right. split; [exact Eh |]. exists r. split; [right; exact Er | exact Es].
    + destruct H as [H | H]; [left; exists 0%nat; eexists; split; [reflexivity |]; injection H as <- <- <-; split; reflexivity |]. destruct (IH _ _ _ _ _ _ H) as [E | (Eh & r & Er & Es)]; [left; apply STEP; exact E |].
      right. split; [exact Eh |]. exists r. split; [right; exact Er | exact Es].
  - destruct H as [H | [H | H]]; [left; exists 0%nat; eexists; split; [reflexivity |]; injection H as <- <- <-; split; reflexivity | discriminate |].
    destruct (IH _ _ _ _ _ _ H) as [E | (Eh & r & Er & Es)]; [left; apply STEP; exact E |]. right. split; [exact Eh |]. exists r. split; [right; right; exact Er | exact Es].
  - destruct H as [H | H]; [discriminate |]. destruct (IH _ _ _ _ _ _ H) as [E | (Eh & r & Er & Es)]; [left; exact E |]. right. split; [exact Eh |]. exists r. split; [right; exact Er | exact Es].
  - destruct H as [H | H]; [discriminate |].
    assert (K : forall k0, In (EOpen k' h sid) (events id k0 i ms) -> (forall e, In e (events id k0 i ms) -> In e (match f with RRequestChannel q => EOpen k ReqRC (rq_sid q) :: events id (S k) i ms | _ => events id k i ms end)) ->
      (exists c m, nth_error (filter is_call ms) c = Some m /\ sid = idc id c /\ opens m = Some h) \/ (h = ReqRC /\ exists r, In (EFrame (RRequestChannel r)) (EFrame f :: match f with RRequestChannel q => EOpen k ReqRC (rq_sid q) :: events id (S k) i ms | _ => events id k i ms end) /\ rq_sid r = sid)).
    { intros k0 Q S. destruct (IH _ _ _ _ _ _ Q) as [E | (Eh & r & Er & Es)]; [left; exact E |]. right. split; [exact Eh |]. exists r. split; [right; apply S; exact Er | exact Es]. }
    destruct f; try (apply (K k); [exact H | auto]).
    destruct H as [H | H]; [injection H as <- <- <-; right; split; [reflexivity |]; eexists; split; [left; reflexivity | reflexivity] |]. apply (K (S k)); [exact H | right; assumption].
Qed.
Lemma channels_at : forall ms id k i i' sid, In (EChannel i' sid) (events id k i ms) -> exists c, nth_error (filter is_call ms) c = Some KChannel /\ sid = idc id c.
Proof.
  induction ms as [| m ms IH]; intros id k i i' sid H; [destruct H |].
  assert (STEP : forall k i m0, In (EChannel i' sid) (events ((id + 2) mod 2 ^ 32) k i ms) -> exists c, nth_error (m0 :: filter is_call ms) c = Some KChannel /\ sid = idc id c).
  { intros k0 i0 m0 Q. destruct (IH _ _ _ _ _ Q) as (c & E & Es). exists (S c). rewrite <- idc_next. auto. }
  destruct m as [c [d mm] | | i0 x | i0 | k0 | i0 | j | j x | j | f]; cbn [events filter is_call] in *; try (eapply IH; exact H).
  - destruct c; [eapply STEP; exact H | |]; (destruct H as [H | H]; [discriminate | eapply STEP; exact H]).
  - destruct H as [H | [H | H]]; [discriminate | injection H as <- <-; exists 0%nat; split; reflexivity | eapply STEP; exact H].
  - destruct H as [H | H]; [discriminate | eapply IH; exact H].
  - destruct H as [H | H]; [discriminate |]. destruct f; try (eapply IH; exact H). destruct H as [H | H]; [discriminate | eapply IH; exact H].
Qed.
(** A channel comes right after the handler for what it gives. *)
Definition paired (h : list event) : Prop := forall before after i sid, h = before ++ EChannel i sid :: after -> exists x k, before = x ++ [EOpen k ReqRC sid].
Lemma paired_snoc : forall h e, paired h -> (forall i sid, e = EChannel i sid -> exists x k, h = x ++ [EOpen k ReqRC sid]) -> paired (h ++ [e]).
Proof.
  intros h e P C before after i sid E. destruct (@exists_last _ (EChannel i sid :: after)) as (l & z & El); [discriminate |].
  assert (E' : h ++ [e] = (before ++ l) ++ [z]) by (rewrite E, El, app_assoc; reflexivity). apply app_inj_tail in E' as (E1 & E2). subst z. destruct l as [| y l].
  - cbn [app] in El. injection El as Ee ->. rewrite app_nil_r in E1. subst before. eapply C. symmetry. exact Ee.
  - cbn [app] in El. injection El as <- ->. eapply P. exact E1.
Qed.
Lemma paired_events : forall ms id k i h, paired h -> paired (h ++ events id k i ms).
Proof.
  assert (ONE : forall h e, paired h -> (forall i sid, e <> EChannel i sid) -> paired (h ++ [e])) by (intros h e P Q; apply paired_snoc; [exact P | intros i sid E; exfalso; exact (Q _ _ E)]).
  assert (CONS : forall h e l, paired ((h ++ [e]) ++ l) -> paired (h ++ e :: l)) by (intros h e l P; rewrite <- app_assoc in P; exact P).
  induction ms as [| m ms IH]; intros id k i h P; [cbn [events]; rewrite app_nil_r; exact P |].
  destruct m as [c [d mm] | | i0 x | i0 | k0 | i0 | j | j x | j | f]; cbn [events]; try (apply IH; exact P).
  - destruct c; [apply IH; exact P | |]; (apply CONS, IH, ONE; [exact P | discriminate]).
  - apply CONS, CONS, IH. apply paired_snoc; [apply ONE; [exact P | discriminate] |]. intros i' sid E. injection E as _ <-. eauto.
  - apply CONS, IH, ONE; [exact P | discriminate].
  - apply CONS. assert (Z : paired (h ++ [EFrame f])) by (apply ONE; [exact P | discriminate]). destruct f; try (apply IH; exact Z). apply CONS, IH, ONE; [exact Z | discriminate].
Qed.
Lemma paired_reached : forall sd ms s, k_moves (new_sock sd) ms = Some s -> paired (k_hist s).
Proof. intros sd ms s H. rewrite (hist_reached _ _ _ H). apply (paired_events ms (first_id sd) 0 0 []). intros before after i sid E. destruct before; discriminate E. Qed.

Lemma drops_at : forall ms id k i k', In (EDrop k') (events id k i ms) -> In (KDrop k') ms.
Proof.
  induction ms as [| m ms IH]; intros id k i k' H; [destruct H |]. destruct m as [c [d mm] | | i0 x | i0 | k0 | i0 | j | j x | j | f]; cbn [events] in H; try (right; eapply IH; exact H).
  - right. destruct c; [eapply IH; exact H | |]; (destruct H as [H | H]; [discriminate | eapply IH; exact H]).
  - right. destruct H as [H | [H | H]]; [discriminate | discriminate | eapply IH; exact H].
  - destruct H as [H | H]; [left; injection H as <-; reflexivity | right; eapply IH; exact H].
  - right. destruct H as [H | H]; [discriminate |]. destruct f; try (eapply IH; exact H). destruct H as [H | H]; [discriminate | eapply IH; exact H].
Qed.
Lemma not_dropped : forall sd ms kms s t d k before after e, half sd ms kms s t d -> drops k ms = false -> k_hist s = before ++ e :: after -> dropped k after = false.
Proof.
  intros sd ms kms s t d k before after e V D E. destruct (dropped k after) eqn:Q; [| reflexivity]. apply dropped_in in Q. assert (X : In (EDrop k) (k_hist s)) by (rewrite E; apply in_or_app; right; right; exact Q).
  rewrite (hist_reached _ _ _ (hf_run _ _ _ _ _ _ V)) in X. apply drops_at in X. exfalso. assert (Y : In (KDrop k) (filter not_frame kms)) by (apply filter_In; split; [exact X | reflexivity]).
  rewrite (hf_ms _ _ _ _ _ _ V) in Y. unfold drops in D. assert (Z : existsb (fun m => match m with KDrop k' => Nat.eqb k' k | _ => false end) ms = true) by (apply existsb_exists; exists (KDrop k); split; [exact Y | apply Nat.eqb_refl]).
  congruence.
Qed.
Lemma given_nf : forall j l, given j (filter not_frame l) = given j l.
Proof. intros j. induction l as [| m l IH]; [reflexivity |]. cbn [filter]. destruct m; cbn [not_frame]; unfold given in *; cbn [flat_map]; rewrite ?IH; reflexivity. Qed.
Lemma quit_nf : forall j l, quit j (filter not_frame l) = quit j l.
Proof. intros j. induction l as [| m l IH]; [reflexivity |]. cbn [filter]. destruct m; cbn [not_frame]; unfold quit in *; cbn [existsb]; rewrite ?IH; reflexivity. Qed.
Lemma fed_nf : forall j l, fed j (filter not_frame l) = fed j l.
Proof. intros j. induction l as [| m l IH]; [reflexivity |]. cbn [filter]. destruct m; cbn [not_frame]; unfold fed in *; cbn [flat_map]; rewrite ?IH; reflexivity. Qed.
Lemma cut_nf : forall j l, cut j (filter not_frame l) = cut j l.
Proof. intros j. induction l as [| m l IH]; [reflexivity |]. cbn [filter]. destruct m; cbn [not_frame]; unfold cut in *; cbn [existsb]; rewrite ?IH; reflexivity. Qed.
Lemma is_call_nf : forall l, filter is_call (filter not_frame l) = filter is_call l.
Proof. induction l as [| m l IH]; [reflexivity |]. cbn [filter]. destruct m; cbn [not_frame filter is_call]; rewrite ?IH; reflexivity. Qed.

(** ** Frames of one stream *)

Definition on (sid : N) (l : list rframe) : list rframe := filter (fun f => sid_of f =? sid) l.
Lemma mine_frames : forall evs k sid t, displaced sid evs = false -> map fst (mine k sid t evs) = on sid (frames evs).
Proof.
  induction evs as [| e evs IH]; intros k sid t D; [reflexivity |]. cbn [displaced existsb] in D. apply orb_false_iff in D as (D1 & D2). destruct e as [k' h sid' | | f |]; cbn [mine frames flat_map app].
  - rewrite D1. apply IH. exact D2.
  - apply IH. exact D2.
  - unfold on. cbn [filter]. destruct (sid_of f =? sid); cbn [map fst]; rewrite IH by exact D2; reflexivity.
  - apply IH. exact D2.
Qed.
Definition all_there (l : list rframe) : list (rframe * bool) := map (fun f => (f, true)) l.
Lemma heard_gone : forall h k sid evs, heard h (mine k sid false evs) = [].
Proof.
  intros h k sid. induction evs as [| e evs IH]; [reflexivity |]. destruct e as [k' kd sid' | | f |]; cbn [mine andb]; try exact IH; [destruct (sid' =? sid); [reflexivity | exact IH] |].
  destruct (sid_of f =? sid); [| exact IH]. cbn [heard app]. rewrite IH. destruct (final h f); reflexivity.
Qed.
Lemma heard_mine : forall h k sid evs, prefix (heard h (mine k sid true evs)) (heard h (all_there (map fst (mine k sid true evs)))) /\
  (dropped k evs = false -> heard h (mine k sid true evs) = heard h (all_there (map fst (mine k sid true evs)))).
Proof.
  intros h k sid. induction evs as [| e evs (IH1 & IH2)]; [split; [exists []; reflexivity | reflexivity] |]. destruct e as [k' kd sid' | | f | k']; cbn [mine dropped existsb orb].
  - destruct (sid' =? sid); [split; [exists []; reflexivity | reflexivity] | split; assumption].
  - split; assumption.
  - destruct (sid_of f =? sid); [| split; assumption]. cbn [all_there map fst heard]. destruct (final h f).
    + rewrite !app_nil_r. split; [exists []; rewrite app_nil_r; reflexivity | reflexivity].
    + split; [destruct IH1 as (c & E); exists c; unfold all_there in E; rewrite E, app_assoc; reflexivity | intro D; rewrite (IH2 D); reflexivity].
  - destruct (Nat.eqb k' k); cbn [negb andb orb].
    + rewrite heard_gone. split; [eexists; reflexivity | discriminate].
    + split; assumption.
Qed.
Definition uncancelled (l : list rframe) : list rframe := filter (fun f => match f with RCancel _ => false | _ => true end) l.
Lemma heard_uncancelled : forall h l, h <> ReqRR -> prefix (heard h (all_there l)) (heard h (all_there (uncancelled l))).
Proof.
  intros h l Q. induction l as [| f l IH]; [exists []; reflexivity |]. unfold uncancelled, all_there in *. cbn [filter map]. destruct f as [p | sid | sid code data | sid n | r | r | r | r]; cbn [map heard].
  2: { cbn [tells final]. destruct h; [congruence | |]; eexists; reflexivity. }
  all: destruct (final h _); [rewrite app_nil_r; exists []; rewrite !app_nil_r; reflexivity |]; destruct IH as (c & E); exists c; rewrite E, app_assoc; reflexivity.
Qed.
Lemma heard_prefix : forall h x y, prefix x y -> prefix (heard h (all_there x)) (heard h (all_there y)).
Proof.
  intros h x y (c & ->). unfold all_there. rewrite map_app, heard_app. eexists. reflexivity.
Qed.
Lemma prefix_trans : forall A (x y z : list A), prefix x y -> prefix y z -> prefix x z.
Proof. intros A x y z (c & ->) (d & ->). exists (c ++ d). rewrite app_assoc. reflexivity. Qed.
Lemma prefix_filter : forall A (g : A -> bool) x y, prefix x y -> prefix (filter g x) (filter g y).
Proof. intros A g x y (c & ->). rewrite filter_app. eexists. reflexivity. Qed.
Lemma prefix_refl : forall A (x : list A), prefix x x.
Proof. intros A x. exists []. rewrite app_nil_r. reflexivity. Qed.
Lemma prefix_map : forall A B (g : A -> B) x y, prefix x y -> prefix (map g x) (map g y).
Proof. intros A B g x y (c & ->). rewrite map_app. eexists. reflexivity. Qed.
Lemma prefix_firstn : forall A n (l : list A), prefix (firstn n l) l.
Proof. intros A n l. exists (skipn n l). symmetry. apply firstn_skipn. Qed.

(** What owed frames tell. *)
Lemma heard_owed : forall h sid l live, h <> ReqRR -> heard h (all_there (map (item_frame sid) (until_complete l) ++ if completed l || negb live then [end_frame sid] else [])) = news_of l.
Proof.
  intros h sid l live Q. induction l as [| x l IH].
  - cbn [until_complete map completed existsb orb app]. destruct (negb live); [| reflexivity]. destruct h; [congruence | |]; reflexivity.
  - destruct x as [[d m] | e |]; cbn [until_complete map completed existsb orb app news_of].
    + unfold completed in IH. cbn [all_there map heard item_frame tells rp_next rp_data rp_metadata final rp_complete]. destruct h; [congruence | |]; cbn [app]; f_equal; exact IH.
    + cbn [all_there map heard item_frame tells final]. unfold failure. destruct e; destruct h; try congruence; reflexivity.
    + cbn [all_there map heard tells end_frame rp_next rp_data rp_metadata final rp_complete]. destruct h; [congruence | |]; reflexivity.
Qed.
Lemma heard_channel : forall sid l live, heard ReqRC (all_there (channel_frames sid false (until_complete l) ++ if completed l || negb live then [end_frame sid] else [])) = input_of l.
Proof.
  intros sid l live. induction l as [| x l IH].
  - cbn [until_complete channel_frames completed existsb orb app]. destruct (negb live); reflexivity.
  - destruct x as [[d m] | e |]; cbn [until_complete channel_frames completed existsb orb app input_of].
    + unfold completed in IH. cbn [all_there map heard tells rp_next rp_data rp_metadata final rp_complete app]. f_equal. exact IH.
    + reflexivity.
    + reflexivity.
Qed.

(** ** What one end asks of the other, and is told *)

Definition rsid (x : skind * N * pay) : N := snd (fst x).
Lemma received_sids : forall h, map rsid (received h) = map sid_of (filter is_request (frames h)).
Proof. induction h as [| e h IH]; [reflexivity |]. destruct e as [| | f |]; try exact IH. unfold received, frames in *. cbn [flat_map]. rewrite map_app, IH. destruct f; reflexivity. Qed.
Lemma nodup_prefix : forall A (x y : list A), NoDup (x ++ y) -> NoDup x.
Proof. intros A x y. induction x as [| z x IH]; intro D; [constructor |]. cbn [app] in D. inversion D as [| z' l Q D' E]; subst. constructor; [intro I0; apply Q, in_or_app; left; exact I0 | apply IH; exact D']. Qed.
Lemma call_unique : forall sd ms sid m m', calls ms <= 2 ^ 31 -> call_of sd ms sid m -> call_of sd ms sid m' -> m = m'.
Proof.
  intros sd ms sid m m' L (c & E & Es) (c' & E' & Es'). assert (Q : N.of_nat c = N.of_nat c'); [| apply Nnat.Nat2N.inj in Q; congruence]. unfold calls, len in L.
  assert (c < length (filter is_call ms))%nat by (apply nth_error_Some; congruence). assert (c' < length (filter is_call ms))%nat by (apply nth_error_Some; congruence).
  apply (nth_id_inj sd); [lia | lia |]. unfold nth_id. congruence.
Qed.
Lemma filter_ext_map : forall A B (g : A -> B) (P : A -> bool) (Q : B -> bool) l, (forall x, In x l -> P x = Q (g x)) -> map g (filter P l) = filter Q (map g l).
Proof.
  intros A B g P Q l. induction l as [| x l IH]; intro H; [reflexivity |]. cbn [filter map]. rewrite (H x) by (left; reflexivity).
  destruct (Q (g x)); cbn [map]; rewrite IH by (intros y Hy; apply H; right; exact Hy); reflexivity.
Qed.
Lemma filter_none : forall A (P : A -> bool) l, (forall x, In x l -> P x = false) -> filter P l = [].
Proof. intros A P l. induction l as [| x l IH]; intro H; [reflexivity |]. cbn [filter]. rewrite (H x) by (left; reflexivity). apply IH. intros y Hy. apply H. right. exact Hy. Qed.
Lemma filter_same : forall A (P Q : A -> bool) l, (forall x, In x l -> P x = Q x) -> filter P l = filter Q l.
Proof. intros A P Q l. induction l as [| x l IH]; intro H; [reflexivity |]. cbn [filter]. rewrite (H x) by (left; reflexivity). rewrite IH by (intros y Hy; apply H; right; exact Hy). reflexivity. Qed.

Lemma events_next : forall ms id k i before r e after, events id k i ms = before ++ EFrame (RRequestChannel r) :: e :: after -> exists k', e = EOpen k' ReqRC (rq_sid r).
Proof.
  induction ms as [| m ms IH]; intros id k i before r e after E; [destruct before; discriminate E |].
  assert (ONE : forall id k i x, (forall f, x <> EFrame f) -> x :: events id k i ms = before ++ EFrame (RRequestChannel r) :: e :: after -> exists k', e = EOpen k' ReqRC (rq_sid r)).
  { intros id' k' i' x Q E'. destruct before as [| y before]; cbn [app] in E'; [exfalso; apply (Q (RRequestChannel r)); congruence |]. injection E' as _ E'. eapply IH; exact E'. }
  destruct m as [c [d mm] | | i0 x | i0 | k0 | i0 | j | j x | j | f]; cbn [events] in E; try (eapply IH; exact E).
  - destruct c; [eapply IH; exact E | |]; (eapply ONE; [| exact E]; discriminate).
  - destruct before as [| y before]; [discriminate E |]. cbn [app] in E. injection E as _ E. destruct before as [| z before]; [discriminate E |]. cbn [app] in E. injection E as _ E. eapply IH; exact E.
  - eapply ONE; [| exact E]; discriminate.
  - destruct before as [| y before]; cbn [app] in E.
    + assert (Ef : f = RRequestChannel r) by congruence. subst f. cbn match in E. injection E as <- _. eexists. reflexivity.
    + injection E as _ E. destruct f; try (eapply IH; exact E). destruct before as [| z before]; [discriminate E |]. cbn [app] in E. injection E as _ E. eapply IH; exact E.
Qed.

Lemma events_split : forall ms id k i before k' h sid after, events id k i ms = before ++ EOpen k' h sid :: after -> k' = (k + openings before)%nat /\
  ((exists c m, nth_error (filter is_call ms) c = Some m /\ sid = idc id c /\ opens m = Some h) \/ (h = ReqRC /\ exists r x, before = x ++ [EFrame (RRequestChannel r)] /\ rq_sid r = sid)).
Proof.
  induction ms as [| m ms IH]; intros id k i before k' h sid after E; [destruct before; discriminate E |].
  assert (LATER : forall m0 b0 bs, (exists c m, nth_error (filter is_call ms) c = Some m /\ sid = idc ((id + 2) mod 2 ^ 32) c /\ opens m = Some h) \/ (h = ReqRC /\ exists r x, bs = x ++ [EFrame (RRequestChannel r)] /\ rq_sid r = sid) ->
    (exists c m, nth_error (m0 :: filter is_call ms) c = Some m /\ sid = idc id c /\ opens m = Some h) \/ (h = ReqRC /\ exists r x, b0 ++ bs = x ++ [EFrame (RRequestChannel r)] /\ rq_sid r = sid)).
  { intros m0 b0 bs [(c & m' & E' & Es & O) | (Eh & r & x & Ex & Es)]; [left; exists (S c), m'; rewrite <- idc_next; auto | right; split; [exact Eh |]; exists r, (b0 ++ x); rewrite Ex, app_assoc; auto]. }
  assert (SKIP : forall b0 bs, (exists c m, nth_error (filter is_call ms) c = Some m /\ sid = idc id c /\ opens m = Some h) \/ (h = ReqRC /\ exists r x, bs = x ++ [EFrame (RRequestChannel r)] /\ rq_sid r = sid) ->
    (exists c m, nth_error (filter is_call ms) c = Some m /\ sid = idc id c /\ opens m = Some h) \/ (h = ReqRC /\ exists r x, b0 ++ bs = x ++ [EFrame (RRequestChannel r)] /\ rq_sid r = sid)).
  { intros b0 bs [X | (Eh & r & x & Ex & Es)]; [left; exact X | right; split; [exact Eh |]; exists r, (b0 ++ x); rewrite Ex, app_assoc; auto]. }
  destruct m as [c [d mm] | | i0 x | i0 | k0 | i0 | j | j x | j | f]; cbn [events filter is_call] in *; try (eapply IH; exact E).
  - destruct c.
    + destruct (IH _ _ _ _ _ _ _ _ E) as (K & X). split; [exact K |]. exact (LATER _ [] _ X).
    + destruct before as [| y before]; cbn [app] in E; [split; [cbn; injection E as <- _ _ _; lia | left; exists 0%nat; eexists; split; [reflexivity |]; injection E as _ <- <- _; split; reflexivity] |].
      injection E as <- E. destruct (IH _ _ _ _ _ _ _ _ E) as (K & X). split; [rewrite K; unfold openings; cbn [filter length]; lia |]. exact (LATER _ [_] _ X).
    + destruct before as [| y before]; cbn [app] in E; [split; [cbn; injection E as <- _ _ _; lia | left; exists 0%nat; eexists; split; [reflexivity |]; injection E as _ <- <- _; split; reflexivity] |].
      injection E as <- E. destruct (IH _ _ _ _ _ _ _ _ E) as (K & X). split; [rewrite K; unfold openings; cbn [filter length]; lia |]. exact (LATER _ [_] _ X).
  - destruct before as [| y before]; cbn [app] in E; [split; [cbn; injection E as <- _ _ _; lia | left; exists 0%nat; eexists; split; [reflexivity |]; injection E as _ <- <- _; split; reflexivity] |].
    injection E as <- E. destruct before as [| z before]; [discriminate E |]. cbn [app] in E. injection E as <- E. destruct (IH _ _ _ _ _ _ _ _ E) as (K & X). split; [rewrite K; unfold openings; cbn [filter length]; lia |]. exact (LATER _ [_; _] _ X).
  - destruct before as [| y before]; [discriminate E |]. cbn [app] in E. injection E as <- E. destruct (IH _ _ _ _ _ _ _ _ E) as (K & X). split; [rewrite K; reflexivity |]. exact (SKIP [_] _ X).
  - destruct before as [| y before]; [discriminate E |]. cbn [app] in E. injection E as <- E.
    assert (PLAIN : events id k i ms = before ++ EOpen k' h sid :: after -> k' = (k + openings (EFrame f :: before))%nat /\
      ((exists c m, nth_error (filter is_call ms) c = Some m /\ sid = idc id c /\ opens m = Some h) \/ (h = ReqRC /\ exists r x, EFrame f :: before = x ++ [EFrame (RRequestChannel r)] /\ rq_sid r = sid))).
    { intro E'. destruct (IH _ _ _ _ _ _ _ _ E') as (K & X). split; [rewrite K; reflexivity |]. exact (SKIP [_] _ X). }
    destruct f; try (apply PLAIN; exact E). destruct before as [| z before]; cbn [app] in E.
    + injection E as <- <- <- _. split; [cbn; lia |]. right. split; [reflexivity |]. eexists. exists []. split; reflexivity.
    + injection E as <- E. destruct (IH _ _ _ _ _ _ _ _ E) as (K & X). split; [rewrite K; unfold openings; cbn [filter length]; lia |]. exact (SKIP [_; _] _ X).
Qed.
Lemma opened_at : forall sd ms s k h sid, k_moves (new_sock sd) ms = Some s -> In (EOpen k h sid) (k_hist s) -> exists o, nth_error (k_ports s) k = Some o /\ o_sid o = sid /\ o_kind o = h.
Proof.
  intros sd ms s k h sid H Hi. apply in_split in Hi as (x & y & E). pose proof E as E'. rewrite (hist_reached _ _ _ H) in E'. destruct (events_split _ _ _ _ _ _ _ _ _ E') as (K & _).
  destruct (port_of s x y k h sid (settled_reached _ _ _ H)) as (o & Eo & Eh & Es & _); [split; [exact E | symmetry; exact K] |]. exists o. auto.
Qed.

Section Down.
Variables (sdA sdB : sside) (mA kA mB kB : list kmove) (a b : sock) (dA dB : nat).
Hypothesis AB : apart sdA sdB.
Hypothesis HA : half sdA mA kA a b dA.
Hypothesis HB : half sdB mB kB b a dB.
Hypothesis LA : calls kA <= 2 ^ 31.
Hypothesis LB : calls kB <= 2 ^ 31.

Lemma received_nodup : NoDup (map rsid (received (k_hist b))).
Proof.
  rewrite received_sids, (hf_frames _ _ _ _ _ _ HB). destruct (asked_reached _ _ _ (hf_run _ _ _ _ _ _ HA) LA) as (D & _). unfold asked in D.
  rewrite <- (firstn_skipn dB (k_out a)), map_app, filter_app, map_app in D. exact (nodup_prefix _ _ _ D).
Qed.
Lemma received_once : forall j j' v v' sid x x', nth_error (received (k_hist b)) j = Some (v, sid, x) -> nth_error (received (k_hist b)) j' = Some (v', sid, x') -> j = j'.
Proof.
  intros j j' v v' sid x x' E E'. apply (proj1 (NoDup_nth_error _) received_nodup); [rewrite map_length; apply nth_error_Some; congruence |]. rewrite !nth_error_map, E, E'. reflexivity.
Qed.
Lemma received_own : forall j v sid x, nth_error (received (k_hist b)) j = Some (v, sid, x) -> own sdA sid.
Proof. intros j v sid x E. apply nth_error_In in E. destruct (received_ids _ _ _ _ _ _ _ _ _ _ HA HB LA _ _ _ E) as (c & _ & ->). apply nth_id_own. Qed.

Lemma said_in : forall au f s, In (au, f) (k_out s) -> In f (said au s).
Proof. intros au f s H. unfold said. apply in_map_iff. exists (au, f). split; [reflexivity |]. apply filter_In. split; [exact H |]. destruct au; cbn [fst author_eqb]; try reflexivity; apply Nat.eqb_refl. Qed.
Lemma call_idc : forall c m, nth_error (filter is_call kA) c = Some m -> call_of sdA mA (idc (first_id sdA) c) m.
Proof. intros c m E. exists c. split; [rewrite <- (hf_ms _ _ _ _ _ _ HA), is_call_nf; exact E | apply idc_first]. Qed.
Lemma channel_in : forall i c, nth_error (k_callers a) i = Some c -> In (EChannel i (a_sid c)) (k_hist a).
Proof. intros i c E. destruct (ci_grants _ _ _ (callers_reached _ _ _ (hf_run _ _ _ _ _ _ HA) LA) _ _ E) as (x & y & -> & _). apply in_or_app. right. left. reflexivity. Qed.
Lemma request_call : forall au f, In (au, f) (k_out a) -> is_request f = true ->
  (exists k x, au = ByApp /\ f = request_of k (sid_of f) x /\ call_of sdA mA (sid_of f) (KCall k x)) \/
  (exists i c r, au = ByCaller i /\ f = RRequestChannel r /\ nth_error (k_callers a) i = Some c /\ a_sid c = sid_of f /\ call_of sdA mA (sid_of f) KChannel).
Proof.
  intros au f H R. pose proof (authors _ _ _ _ _ (hf_run _ _ _ _ _ _ HA) LA H) as X. destruct au as [| i | j |].
  - left. apply said_in in H. rewrite (proj2 (next_reached _ _ _ (hf_run _ _ _ _ _ _ HA))) in H. apply requests_at in H as (c & k & x & E & ->). exists k, x. split; [reflexivity |].
    assert (Z : sid_of (request_of k (idc (first_id sdA) c) x) = idc (first_id sdA) c) by (destruct k; reflexivity). rewrite Z. split; [reflexivity |]. apply call_idc. exact E.
  - right. apply said_in in H. pose proof (callers_reached _ _ _ (hf_run _ _ _ _ _ _ HA) LA) as C. destruct (nth_error (k_callers a) i) as [c |] eqn:Ea; [| apply nth_error_None in Ea; rewrite (ci_none _ _ _ C _ Ea) in H; destruct H].
    destruct (ci_ok _ _ _ C _ _ Ea) as (_ & Ew & _). rewrite Ew in H. assert (X' : In f (channel_frames (a_sid c) true (firstn (u_pos (a_in c)) (u_fed (a_in c))))).
    { apply in_app_or in H as [Q | Q]; [exact Q |]. destruct (ended c); [destruct Q as [<- | []]; discriminate R | destruct Q]. }
    assert (Es : sid_of f = a_sid c) by (eapply channel_sids; exact X'). rewrite Es. pose proof (channel_in _ _ Ea) as Hc. rewrite (hist_reached _ _ _ (hf_run _ _ _ _ _ _ HA)) in Hc. apply channels_at in Hc as (n & En & Hn).
    assert (Er : exists r, f = RRequestChannel r).
    { clear -X' R. revert X'. generalize true. generalize (firstn (u_pos (a_in c)) (u_fed (a_in c))). induction l as [| y l IH]; intros t Q; [destruct Q |]. destruct y as [[d m] | e |]; cbn [channel_frames] in Q; destruct Q as [<- | Q]; try (eapply IH; exact Q); try discriminate R.
      destruct t; [eexists; reflexivity | discriminate R]. }
    destruct Er as (r & Er). exists i, c, r. split; [reflexivity |]. split; [exact Er |]. split; [exact Ea |]. split; [reflexivity |]. rewrite Hn. apply call_idc. exact En.
  - destruct X as (v & sid & p & _ & (_ & Q & _)). congruence.
  - apply reply_not_request in X. congruence.
Qed.
Lemma received_frame : forall h v sid x, In (v, sid, x) (received h) -> exists f, In (EFrame f) h /\ is_request f = true /\ sid_of f = sid /\ request_in (EFrame f) = [(v, sid, x)].
Proof.
  intros h v sid x H. unfold received in H. apply in_flat_map in H as (e & He & Hr). destruct e as [| | f |]; try contradiction. exists f. split; [exact He |].
  destruct f; cbn [request_in] in Hr |- *; try contradiction; destruct Hr as [Hr | []]; (split; [reflexivity |]); injection Hr as <- <- <-; (split; reflexivity).
Qed.
Lemma received_call : forall v sid x, In (v, sid, x) (received (k_hist b)) -> exists m, call_of sdA mA sid m /\ asks m v x.
Proof.
  intros v sid x H. destruct (received_frame _ _ _ _ H) as (f & Hf & R & Es & Er). destruct (from_other _ _ _ _ _ _ _ HB Hf) as (au & Hau).
  destruct (request_call _ _ Hau R) as [(k & y & _ & Ef & C) | (i & c & r & _ & Ef & _ & _ & C)]; rewrite Es in *.
  - exists (KCall k y). split; [exact C |]. rewrite Ef in Er. destruct y as [d m]. destruct k; cbn in Er; (assert (Ev : match v with VFnF | VRR | VStream => (d, m) = x | VChannel => False end) by (destruct v; congruence)); destruct v; first [exact Ev | discriminate Er | destruct Ev].
  - exists KChannel. split; [exact C |]. rewrite Ef in Er. cbn in Er. assert (Ev : v = VChannel) by congruence. rewrite Ev. exact Logic.I.
Qed.

Lemma down_authors : forall au f, In (au, f) (k_out b) -> own sdA (sid_of f) ->
  (exists j v x, nth_error (received (k_hist b)) j = Some (v, sid_of f, x) /\ au = ByServe j /\ forall y, f <> RCancel y) \/
  (au = ByFrame /\ f = RCancel (sid_of f) /\ exists k j x, nth_error (received (k_hist b)) j = Some (VChannel, sid_of f, x) /\ In (EOpen k ReqRC (sid_of f)) (k_hist b) /\ In (EDrop k) (k_hist b)).
Proof.
  intros au f H O. pose proof (authors _ _ _ _ _ (hf_run _ _ _ _ _ _ HB) LB H) as X.
  assert (N0 : forall c, sid_of f <> nth_id sdB c) by (intros c E; apply (AB (sid_of f)); [exact O | rewrite E; apply nth_id_own]).
  destruct au as [| i | j |].
  - destruct X as (_ & c & _ & E). exfalso. exact (N0 _ E).
  - destruct X as (_ & c & _ & E). exfalso. exact (N0 _ E).
  - left. destruct X as (v & sid & x & E & (<- & _ & Q & _)). exists j, v, x. auto.
  - right. split; [reflexivity |]. destruct X as [(sid & k & h & -> & _ & Ho & Hd) | [(sid & -> & Q) | (sid & n & -> & _ & Q)]]; cbn [RustStreamModel.rframe_sid] in *.
    + split; [reflexivity |]. destruct (open_ids _ _ _ _ _ _ _ _ _ _ HA HB LA _ _ _ Ho) as [(c & _ & E) | (-> & (r & Er & Es) & _)]; [exfalso; exact (N0 _ E) |].
      assert (R : In (VChannel, sid, (rq_data r, rq_metadata r)) (received (k_hist b))) by (unfold received; apply in_flat_map; exists (EFrame (RRequestChannel r)); split; [exact Er | left; rewrite Es; reflexivity]).
      apply In_nth_error in R as (j & R). exists k, j, (rq_data r, rq_metadata r). auto.
    + destruct (credit_ids _ _ _ _ _ _ _ _ _ _ HA HB LA LB _ _ Q) as (_ & c & _ & E). exfalso. exact (N0 _ E).
    + destruct (credit_ids _ _ _ _ _ _ _ _ _ _ HA HB LA LB _ _ Q) as (_ & c & _ & E). exfalso. exact (N0 _ E).
Qed.
Lemma down_said : forall j v sid x, nth_error (received (k_hist b)) j = Some (v, sid, x) -> uncancelled (on sid (map snd (k_out b))) = said (ByServe j) b.
Proof.
  intros j v sid x E. pose proof (received_own _ _ _ _ E) as O. unfold said, uncancelled, on.
  rewrite (filter_ext_map _ _ snd (fun x => author_eqb (fst x) (ByServe j)) (fun f => (sid_of f =? sid) && match f with RCancel _ => false | _ => true end)).
  - generalize (map snd (k_out b)). intro l. induction l as [| f l IH]; [reflexivity |]. cbn [filter]. destruct (sid_of f =? sid); cbn [andb filter]; [| exact IH]. rewrite IH. destruct f; reflexivity.
  - intros (au, f) Hf. cbn [fst snd]. destruct (N.eqb_spec (sid_of f) sid) as [Es | Es]; cbn [andb].
    + destruct (down_authors _ _ Hf) as [(j' & v' & x' & E' & -> & Q) | (-> & Ef & _)]; [rewrite Es; exact O | |].
      * rewrite Es in E'. rewrite (received_once _ _ _ _ _ _ _ E' E). cbn [author_eqb]. rewrite Nat.eqb_refl. destruct f; try reflexivity. exfalso. eapply Q. reflexivity.
      * rewrite Ef. reflexivity.
    + pose proof (authors _ _ _ _ _ (hf_run _ _ _ _ _ _ HB) LB Hf) as X. destruct au; try reflexivity. cbn [author_eqb]. destruct (Nat.eqb_spec j0 j) as [-> | Q]; [| reflexivity].
      destruct X as (v' & s' & x' & E' & (Q & _)). rewrite E in E'. injection E' as _ <- _. congruence.
Qed.
Lemma down_none : forall sid, own sdA sid -> (forall j v x, nth_error (received (k_hist b)) j <> Some (v, sid, x)) -> on sid (map snd (k_out b)) = [].
Proof.
  intros sid O Q. apply filter_none. intros f Hf. apply in_map_iff in Hf as ((au, g) & <- & Hg). cbn [snd]. destruct (N.eqb_spec (sid_of g) sid) as [Es | Es]; [| reflexivity].
  destruct (down_authors _ _ Hg) as [(j & v & x & E & _) | (_ & _ & k & j & x & E & _)]; [rewrite Es; exact O | |]; rewrite Es in E; exfalso; exact (Q _ _ _ E).
Qed.

(** What a port of the caller holds comes from the frames of its stream that were processed. *)
Lemma down_frames : forall k o, nth_error (k_ports a) k = Some o -> own sdA (o_sid o) ->
  exists l, prefix l (on (o_sid o) (map snd (k_out b))) /\ (dA = length (k_out b) -> l = on (o_sid o) (map snd (k_out b))) /\
    prefix (o_log o) (heard (o_kind o) (all_there l)) /\ (drops k mA = false -> o_log o = heard (o_kind o) (all_there l)) /\
    exists m, call_of sdA mA (o_sid o) m /\ opens m = Some (o_kind o).
Proof.
  intros k o E O. pose proof (hf_run _ _ _ _ _ _ HA) as RA. destruct (settled_reached _ _ _ RA) as ((_ & _ & K) & _). destruct (K _ _ E) as (before & after & (Eh & Eo) & (_ & Lg & _)).
  destruct (hf_time _ _ _ _ _ _ HA _ _ _ _ _ Eh O) as (T1 & T2).
  assert (OW : opens_with before = []).
  { unfold opens_with. destruct (rev before) as [| e r] eqn:Er; [reflexivity |]. destruct e as [| | f |]; try reflexivity. destruct f as [| | | | | | |rr]; try reflexivity. exfalso.
    assert (X : k_hist a = rev r ++ EFrame (RRequestChannel rr) :: EOpen k (o_kind o) (o_sid o) :: after) by (rewrite Eh, <- (rev_involutive before), Er; cbn [rev]; rewrite <- app_assoc; reflexivity).
    assert (Es : rq_sid rr = o_sid o) by (rewrite (hist_reached _ _ _ RA) in X; destruct (events_next _ _ _ _ _ _ _ _ X) as (k' & Z); congruence).
    destruct (request_ids _ _ _ _ _ _ _ _ _ _ HB HA LB (RRequestChannel rr)) as (c & _ & Z); [rewrite X; apply in_or_app; right; left; reflexivity | reflexivity |].
    apply (AB (o_sid o)); [exact O | rewrite <- Es]. cbn [RustStreamModel.rframe_sid] in Z. rewrite Z. apply nth_id_own. }
  rewrite OW in Lg. cbn [app] in Lg. pose proof (heard_mine (o_kind o) k (o_sid o) after) as (M1 & M2). rewrite <- Lg, mine_frames in M1, M2 by exact T2.
  assert (F : on (o_sid o) (frames after) = on (o_sid o) (map snd (firstn dA (k_out b)))).
  { rewrite <- (hf_frames _ _ _ _ _ _ HA), Eh, frames_app. unfold on. rewrite filter_app. cbn [frames flat_map app].
    rewrite (filter_none _ _ (frames before)); [reflexivity |]. intros f Hf. destruct (N.eqb_spec (sid_of f) (o_sid o)) as [Q | Q]; [exfalso; exact (T1 _ Hf Q) | reflexivity]. }
  rewrite F in M1, M2. exists (on (o_sid o) (map snd (firstn dA (k_out b)))). split; [apply prefix_filter, prefix_map, prefix_firstn |]. split; [intro Z; rewrite Z, firstn_all; reflexivity |]. split; [exact M1 |]. split.
  - intro D. apply M2. eapply not_dropped; [exact HA | exact D | exact Eh].
  - assert (Ho : In (EOpen k (o_kind o) (o_sid o)) (k_hist a)) by (rewrite Eh; apply in_or_app; right; left; reflexivity). pose proof Ho as Ho'. rewrite (hist_reached _ _ _ RA) in Ho.
    destruct (opens_at _ _ _ _ _ _ _ Ho) as [(c & m & Ec & Es & Em) | (_ & r & Er & Es)].
    + exists m. split; [| exact Em]. rewrite Es. apply call_idc. exact Ec.
    + exfalso. rewrite <- (hist_reached _ _ _ RA) in Er. destruct (request_ids _ _ _ _ _ _ _ _ _ _ HB HA LB _ Er eq_refl) as (c & _ & Z). cbn [RustStreamModel.rframe_sid] in Z.
      apply (AB (o_sid o)); [exact O |]. rewrite <- Es, Z. apply nth_id_own.
Qed.

(** ** What the caller's receivers get *)

Lemma served : forall j v sid x, nth_error (received (k_hist b)) j = Some (v, sid, x) -> prefix (said (ByServe j) b) (owed v sid (given j mB) (negb (quit j mB))) /\
  (k_move b (KServe j) = None -> said (ByServe j) b = owed v sid (given j mB) (negb (quit j mB))) /\ (v = VRR -> given j mB = [] \/ exists y, given j mB = [y]).
Proof.
  intros j v sid x E. pose proof (hf_run _ _ _ _ _ _ HB) as H. rewrite <- (hf_ms _ _ _ _ _ _ HB), given_nf, quit_nf. destruct (serves_reached _ _ _ H) as (R1 & R2 & _). rewrite <- R1 in E. rewrite nth_error_map in E.
  destruct (nth_error (k_serves b) j) as [w |] eqn:Ew; [| discriminate]. cbn [option_map] in E. assert (Q : serve_key w = (v, sid, x)) by congruence. unfold serve_key in Q.
  assert (Q1 : v = v_kind w) by congruence. assert (Q2 : sid = v_sid w) by congruence. subst v sid. clear E Q.
  destruct (proj1 (returns_reached _ _ _ H) _ _ Ew) as (F & G). rewrite <- F, <- G. split; [apply serve_prefix; apply R2; exact Ew |]. split.
  - intro Q. cbn [k_move] in Q. rewrite Ew in Q. destruct (serve_step w) as [[w' l] |] eqn:Es; [discriminate |]. apply serve_complete; [apply R2; exact Ew | exact Es].
  - intro Q. pose proof (R2 _ _ Ew) as K. unfold serve_ok in K. rewrite Q in K. cbn [mono_kind] in K. destruct K as (_ & [K | (y & _ & K)] & _); [left | right]; eauto.
Qed.
Lemma down_plain : forall j v sid x, nth_error (received (k_hist b)) j = Some (v, sid, x) -> v <> VChannel \/ (forall k o, nth_error (k_ports b) k = Some o -> o_sid o = sid -> drops k mB = false) ->
  on sid (map snd (k_out b)) = said (ByServe j) b.
Proof.
  intros j v sid x E Q. rewrite <- (down_said _ _ _ _ E). unfold uncancelled. symmetry. rewrite (filter_same _ _ (fun _ => true)); [induction (on sid (map snd (k_out b))) as [| y l IH]; [reflexivity | cbn [filter]; rewrite IH; reflexivity] |].
  intros f Hf. apply filter_In in Hf as (Hf & Es). apply N.eqb_eq in Es. apply in_map_iff in Hf as ((au, g) & Eg & Hg). cbn [snd] in Eg. subst g. destruct f as [p | s0 | | | | | |]; try reflexivity. exfalso.
  destruct (down_authors _ _ Hg) as [(j' & v' & x' & _ & _ & Z) | (_ & _ & k & j' & x' & E' & Ho & Hd)]; [rewrite Es; exact (received_own _ _ _ _ E) | exact (Z _ eq_refl) |]. rewrite Es in *.
  pose proof (received_once _ _ _ _ _ _ _ E E') as <-. rewrite E in E'. destruct Q as [Q | Q]; [congruence |].
  destruct (opened_at _ _ _ _ _ _ (hf_run _ _ _ _ _ _ HB) Ho) as (o & Eo & Eso & _). pose proof (Q _ _ Eo Eso) as D.
  rewrite (hist_reached _ _ _ (hf_run _ _ _ _ _ _ HB)) in Hd. apply drops_at in Hd.
  assert (Y : In (KDrop k) (filter not_frame kB)) by (apply filter_In; split; [exact Hd | reflexivity]). rewrite (hf_ms _ _ _ _ _ _ HB) in Y. unfold drops in D.
  assert (Z : existsb (fun m => match m with KDrop k' => Nat.eqb k' k | _ => false end) mB = true) by (apply existsb_exists; exists (KDrop k); split; [exact Y | apply Nat.eqb_refl]). congruence.
Qed.
Definition served_kind (k : ckind) : skind := match k with CFnF => VFnF | CRR => VRR | CStream => VStream end.
Lemma call_served : forall sid k q, dB = length (k_out a) -> call_of sdA mA sid (KCall k q) -> exists j, nth_error (received (k_hist b)) j = Some (served_kind k, sid, q).
Proof.
  intros sid k q D (c & Ec & Es). pose proof (hf_run _ _ _ _ _ _ HA) as RA. assert (X : In (request_of k (nth_id sdA (N.of_nat c)) q) (said ByApp a)).
  { rewrite (proj2 (next_reached _ _ _ RA)). apply requests_at. exists c, k, q. rewrite idc_first. split; [| reflexivity]. rewrite <- (hf_ms _ _ _ _ _ _ HA), is_call_nf in Ec. exact Ec. }
  unfold said in X. apply in_map_iff in X as ((au, f) & Ef & Hf). cbn [snd] in Ef. apply filter_In in Hf as (Hf & _).
  assert (Hb : In f (frames (k_hist b))) by (rewrite (hf_frames _ _ _ _ _ _ HB), D, firstn_all; apply in_map_iff; exists (au, f); auto). apply frames_in in Hb. subst f.
  assert (R : In (served_kind k, sid, q) (received (k_hist b))); [| apply In_nth_error in R; exact R].
  unfold received. apply in_flat_map. eexists. split; [exact Hb |]. destruct q. unfold nth_id. rewrite <- Es. destruct k; left; reflexivity.
Qed.
Lemma call_kind : forall j v sid x m, nth_error (received (k_hist b)) j = Some (v, sid, x) -> call_of sdA mA sid m -> asks m v x.
Proof.
  intros j v sid x m E C. apply nth_error_In in E. destruct (received_call _ _ _ E) as (m' & C' & A). rewrite (call_unique sdA mA sid m m'); [exact A | | exact C | exact C']. rewrite <- (hf_ms _ _ _ _ _ _ HA), calls_nf. exact LA.
Qed.
Lemma served_or_not : forall sid, (exists j v x, nth_error (received (k_hist b)) j = Some (v, sid, x)) \/ (forall j v x, nth_error (received (k_hist b)) j <> Some (v, sid, x)).
Proof.
  intro sid. destruct (in_dec N.eq_dec sid (map rsid (received (k_hist b)))) as [Hi | Hi].
  - left. apply in_map_iff in Hi as (((v, s0), x) & Es & Hi). cbn in Es. subst s0. apply In_nth_error in Hi as (j & E). exists j, v, x. exact E.
  - right. intros j v x E. apply Hi. apply in_map_iff. exists (v, sid, x). split; [reflexivity |]. eapply nth_error_In. exact E.
Qed.
Lemma prefix_nil : forall A (l : list A), prefix l [] -> l = [].
Proof. intros A l (c & E). destruct l; [reflexivity | discriminate E]. Qed.

Definition down_ok (k : nat) (o : port) (v : skind) (x : option pay) (tell : list signal -> list news) : Prop :=
  (o_log o = [] \/ exists j q, nth_error (received (k_hist b)) j = Some (v, o_sid o, q) /\ (forall y, x = Some y -> q = y) /\ prefix (o_log o) (tell (given j mB))) /\
  (forall j q, dA = length (k_out b) -> (forall j, k_move b (KServe j) = None) -> drops k mA = false -> v <> VChannel \/ (forall k o', nth_error (k_ports b) k = Some o' -> o_sid o' = o_sid o -> drops k mB = false) ->
     nth_error (received (k_hist b)) j = Some (v, o_sid o, q) -> o_log o = tell (given j mB)).
Lemma down_all : forall k o v x tell, nth_error (k_ports a) k = Some o -> own sdA (o_sid o) ->
  (forall j v' y, nth_error (received (k_hist b)) j = Some (v', o_sid o, y) -> v' = v /\ (forall z, x = Some z -> y = z)) ->
  (o_kind o = ReqRR -> v = VRR) ->
  (forall j y, nth_error (received (k_hist b)) j = Some (v, o_sid o, y) -> heard (o_kind o) (all_there (owed v (o_sid o) (given j mB) (negb (quit j mB)))) = tell (given j mB)) -> down_ok k o v x tell.
Proof.
  intros k o v x tell E O U RRV T. destruct (down_frames _ _ E O) as (l & P1 & P2 & P3 & P4 & _). split.
  - destruct (served_or_not (o_sid o)) as [(j & v' & y & Ej) | NO].
    + right. destruct (U _ _ _ Ej) as (-> & Ux). exists j, y. split; [exact Ej |]. split; [exact Ux |]. rewrite <- (T _ _ Ej). eapply prefix_trans; [exact P3 |].
      eapply prefix_trans; [apply heard_prefix; exact P1 |]. destruct (served _ _ _ _ Ej) as (S1 & _).
      destruct (o_kind o) eqn:Ek.
      * rewrite (down_plain _ _ _ _ Ej) by (left; rewrite (RRV eq_refl); discriminate). apply heard_prefix. exact S1.
      * eapply prefix_trans; [apply heard_uncancelled; discriminate |]. rewrite (down_said _ _ _ _ Ej). apply heard_prefix. exact S1.
      * eapply prefix_trans; [apply heard_uncancelled; discriminate |]. rewrite (down_said _ _ _ _ Ej). apply heard_prefix. exact S1.
    + left. rewrite (down_none _ O NO) in P1. apply prefix_nil in P1. subst l. apply prefix_nil in P3. exact P3.
  - intros j q D R Dk Q Ej. rewrite (P4 Dk), (P2 D), (down_plain _ _ _ _ Ej Q), <- (T _ _ Ej). destruct (served _ _ _ _ Ej) as (_ & S2 & _). rewrite (S2 (R j)). reflexivity.
Qed.
Lemma down_response : forall k o, nth_error (k_ports a) k = Some o -> own sdA (o_sid o) -> o_kind o = ReqRR -> exists q, call_of sdA mA (o_sid o) (KCall CRR q) /\ down_ok k o VRR (Some q) (flat_map answer).
Proof.
  intros k o E O K. destruct (down_frames _ _ E O) as (_ & _ & _ & _ & _ & m & C & M). rewrite K in M. destruct m as [[] q | | | | | | | | |]; try discriminate. exists q. split; [exact C |]. apply down_all; try assumption.
  - intros j v y Ej. pose proof (call_kind _ _ _ _ _ Ej C) as A. destruct v; try contradiction. split; [reflexivity |]. intros z Z. cbn in A. congruence.
  - reflexivity.
  - intros j y Ej. rewrite K. destruct (served _ _ _ _ Ej) as (_ & _ & G). destruct (G eq_refl) as [-> | (z & ->)]; [reflexivity |]. destruct z as [[d m] | e |]; reflexivity.
Qed.
Lemma down_stream : forall k o, nth_error (k_ports a) k = Some o -> own sdA (o_sid o) -> o_kind o = ReqRS -> exists q, call_of sdA mA (o_sid o) (KCall CStream q) /\ down_ok k o VStream (Some q) news_of.
Proof.
  intros k o E O K. destruct (down_frames _ _ E O) as (_ & _ & _ & _ & _ & m & C & M). rewrite K in M. destruct m as [[] q | | | | | | | | |]; try discriminate. exists q. split; [exact C |]. apply down_all; try assumption.
  - intros j v y Ej. pose proof (call_kind _ _ _ _ _ Ej C) as A. destruct v; try contradiction. split; [reflexivity |]. intros z Z. cbn in A. congruence.
  - rewrite K. discriminate.
  - intros j y Ej. rewrite K. apply heard_owed. discriminate.
Qed.
Lemma down_channel : forall k o, nth_error (k_ports a) k = Some o -> own sdA (o_sid o) -> o_kind o = ReqRC -> call_of sdA mA (o_sid o) KChannel /\ down_ok k o VChannel None news_of.
Proof.
  intros k o E O K. destruct (down_frames _ _ E O) as (_ & _ & _ & _ & _ & m & C & M). rewrite K in M. destruct m as [[] q | | | | | | | | |]; try discriminate. split; [exact C |]. apply down_all; try assumption.
  - intros j v y Ej. pose proof (call_kind _ _ _ _ _ Ej C) as A. destruct v; try contradiction. split; [reflexivity | discriminate].
  - rewrite K. discriminate.
  - intros j y Ej. rewrite K. unfold owed. cbn [all_there map heard tells final app]. apply (heard_owed ReqRC). discriminate.
Qed.
End Down.
