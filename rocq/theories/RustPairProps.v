(** C86: what callers and handlers joined by two Rust WasmSockets see of each other; each theorem with its assumptions and an example. *)
From Coq Require Import List NArith ZArith Lia Bool.
From Verif Require Import Base ProxyModel RustFramesModel RustSocketModel RustSocketSpec RustSocketProofs RustSocketCalls RustPairModel RustPairSpec RustPairProofs RustPairStreams RustPairUp.
From Verif Require RustCallModel RustStreamModel.
Import ListNotations.
Open Scope N_scope.

Lemma faced : forall sd ms p sdC mC c mS s, p_moves (new_pair sd) ms = Some p -> few ms -> facing sd ms p sdC mC c mS s ->
  exists sdS kC kS dC dS, apart sdC sdS /\ half sdC mC kC c s dC /\ half sdS mS kS s c dS /\ calls kC <= 2 ^ 31 /\ calls kS <= 2 ^ 31 /\ quiet c /\ begun_all c /\
    (at_rest p -> dC = length (k_out s) /\ dS = length (k_out c) /\ (forall i, k_move c (KCaller i) = None) /\ (forall j, k_move s (KServe j) = None)).
Proof.
  intros sd ms p sdC mC c mS s H F V. destruct (pair_reached _ _ _ H F) as (kA & kB & HA & HB). destruct (good_reached _ _ _ H F) as ((Q1 & Q2) & B1 & B2). destruct (apart_other sd) as (AB & BA). destruct F as (FA & FB).
  assert (LA : calls kA <= 2 ^ 31) by (rewrite (half_calls _ _ _ _ _ _ HA); exact FA). assert (LB : calls kB <= 2 ^ 31) by (rewrite (half_calls _ _ _ _ _ _ HB); exact FB).
  destruct V; [exists (other sd), kA, kB, (p_da p), (p_db p) | exists sd, kB, kA, (p_db p), (p_da p)]; (repeat (split; [assumption |])); intros (R1 & R2 & R3 & R4); repeat split; auto; intro; try apply R3; apply R4.
Qed.

(** Rest, for pairs with few tasks. *)
Lemma rest_by : forall p n, p_da p = length (k_out (p_b p)) -> p_db p = length (k_out (p_a p)) ->
  forallb (fun i => match k_move (p_a p) (KCaller i), k_move (p_b p) (KCaller i), k_move (p_a p) (KServe i), k_move (p_b p) (KServe i) with None, None, None, None => true | _, _, _, _ => false end) (seq 0 n) = true ->
  (length (k_callers (p_a p)) <= n)%nat -> (length (k_callers (p_b p)) <= n)%nat -> (length (k_serves (p_a p)) <= n)%nat -> (length (k_serves (p_b p)) <= n)%nat -> at_rest p.
Proof.
  intros p n DA DB FB L1 L2 L3 L4. split; [exact DA |]. split; [exact DB |].
  assert (X : forall i, k_move (p_a p) (KCaller i) = None /\ k_move (p_b p) (KCaller i) = None /\ k_move (p_a p) (KServe i) = None /\ k_move (p_b p) (KServe i) = None).
  { intro i. destruct (Nat.ltb_spec i n) as [Q | Q].
    - rewrite forallb_forall in FB. specialize (FB i). rewrite in_seq in FB. specialize (FB ltac:(lia)). destruct (k_move (p_a p) (KCaller i)), (k_move (p_b p) (KCaller i)), (k_move (p_a p) (KServe i)), (k_move (p_b p) (KServe i)); try discriminate FB. auto.
    - cbn [k_move]. unfold caller_step. rewrite (proj2 (nth_error_None (k_callers (p_a p)) i)), (proj2 (nth_error_None (k_callers (p_b p)) i)), (proj2 (nth_error_None (k_serves (p_a p)) i)), (proj2 (nth_error_None (k_serves (p_b p)) i)) by lia. auto. }
  split; intro i; destruct (X i) as (X1 & X2 & X3 & X4); auto.
Qed.

(** Both ends call and serve all four interactions. *)
Definition ex_pay (d : N) : pay := ([d], [9]).
Definition ex_ms : list pmove :=
  [PA (KCall CRR (ex_pay 1)); PA (KCall CStream (ex_pay 2)); PB (KCall CRR (ex_pay 3)); PA KChannel; PA (KFeed 0 (SOk (ex_pay 4))); PA (KCaller 0); PA (KCall CFnF (ex_pay 5));
   PToB; PToB; PToB; PToB; PToA; PB (KServe 1); PB (KServe 2);
   PB (KGive 0 (SOk (ex_pay 6))); PB (KServe 0); PB (KGive 1 (SOk (ex_pay 7))); PB (KGive 1 (SErr [1])); PB (KGive 1 (SOk (ex_pay 8))); PB (KServe 1); PB (KServe 1); PB (KServe 1);
   PB (KGive 2 (SOk (ex_pay 9))); PB (KServe 2); PB (KGive 3 (SOk (ex_pay 0))); PB (KServe 3); PToA; PToA; PToA; PToA; PToA; PToA;
   PA (KCaller 0); PA (KFeed 0 (SOk (ex_pay 10))); PA (KFeed 0 (SErr [2])); PA (KCaller 0); PA (KCaller 0); PA (KGive 0 (SErr [])); PA (KServe 0); PToB; PToB; PToB].
Definition ex_p : pair := match p_moves (new_pair Guest) ex_ms with Some p => p | None => new_pair Guest end.
Lemma ex_by : p_moves (new_pair Guest) ex_ms = Some ex_p.
Proof. vm_compute. reflexivity. Qed.
Lemma ex_few : few ex_ms.
Proof. split; vm_compute; discriminate. Qed.
Lemma ex_rest : at_rest ex_p.
Proof. apply (rest_by _ 4); vm_compute; first [reflexivity | lia]. Qed.

(** C86: whatever either end does and in whatever order frames are processed, a request received is for one call of the other end, of its kind and with its payload; no call is received twice. *)
Theorem C86_received : forall sd ms p sdC mC c mS s, p_moves (new_pair sd) ms = Some p -> few ms -> facing sd ms p sdC mC c mS s ->
  (forall j v sid x, nth_error (received (k_hist s)) j = Some (v, sid, x) -> exists m, call_of sdC mC sid m /\ asks m v x) /\
  (forall j j' v v' sid x x', nth_error (received (k_hist s)) j = Some (v, sid, x) -> nth_error (received (k_hist s)) j' = Some (v', sid, x') -> j = j').
Proof.
  intros sd ms p sdC mC c mS s H F V. destruct (faced _ _ _ _ _ _ _ _ H F V) as (sdS & kC & kS & dC & dS & AB & HC & HS & LC & LS & _). split.
  - intros j v sid x E. apply nth_error_In in E. eapply received_call; [exact HC | exact HS | exact LC | exact E].
  - intros j j' v v' sid x x' E E'. eapply received_once; [exact HC | exact HS | exact LC | exact E | exact E'].
Qed.
Print Assumptions C86_received.
Example C86_received_example : received (k_hist (p_b ex_p)) = [(VRR, 2, ex_pay 1); (VStream, 4, ex_pay 2); (VChannel, 6, ex_pay 4); (VFnF, 8, ex_pay 5)].
Proof. vm_compute. reflexivity. Qed.
(** C86: and every call but a channel is received, once all frames are processed. *)
Theorem C86_calls : forall sd ms p sdC mC c mS s sid k x, p_moves (new_pair sd) ms = Some p -> few ms -> facing sd ms p sdC mC c mS s -> at_rest p ->
  call_of sdC mC sid (KCall k x) -> exists j v, nth_error (received (k_hist s)) j = Some (v, sid, x) /\ asks (KCall k x) v x.
Proof.
  intros sd ms p sdC mC c mS s sid k x H F V R C. destruct (faced _ _ _ _ _ _ _ _ H F V) as (sdS & kC & kS & dC & dS & AB & HC & HS & LC & LS & _ & _ & RR). destruct (RR R) as (_ & D & _).
  destruct (call_served _ _ _ _ _ _ _ _ _ _ HC HS _ _ _ D C) as (j & E). exists j, (served_kind k). split; [exact E |]. destruct k; reflexivity.
Qed.
Print Assumptions C86_calls.
Example C86_calls_example : call_of Guest (side_a ex_ms) 8 (KCall CFnF (ex_pay 5)).
Proof. exists 3%nat. split; vm_compute; reflexivity. Qed.

(** C86: the receiver of a call for one answer gets nothing, or what the handler of that call concluded with; at rest it has that, unless it was dropped. *)
Theorem C86_response : forall sd ms p sdC mC c mS s k o, p_moves (new_pair sd) ms = Some p -> few ms -> facing sd ms p sdC mC c mS s -> nth_error (k_ports c) k = Some o -> own sdC (o_sid o) -> o_kind o = ReqRR ->
  exists x, call_of sdC mC (o_sid o) (KCall CRR x) /\
    (o_log o = [] \/ exists j y, nth_error (received (k_hist s)) j = Some (VRR, o_sid o, x) /\ given j mS = [y] /\ o_log o = answer y) /\
    (at_rest p -> drops k mC = false -> exists j, nth_error (received (k_hist s)) j = Some (VRR, o_sid o, x) /\ o_log o = flat_map answer (given j mS)).
Proof.
  intros sd ms p sdC mC c mS s k o H F V E O K. destruct (faced _ _ _ _ _ _ _ _ H F V) as (sdS & kC & kS & dC & dS & AB & HC & HS & LC & LS & _ & _ & RR).
  destruct (down_response _ _ _ _ _ _ _ _ _ _ AB HC HS LC LS _ _ E O K) as (x & C & D1 & D2). exists x. split; [exact C |]. split.
  - destruct D1 as [D1 | (j & q & Ej & Eq & (w & P))]; [left; exact D1 |]. specialize (Eq _ eq_refl). subst q. destruct (served _ _ _ _ _ _ HS _ _ _ _ Ej) as (_ & _ & G). destruct (G eq_refl) as [G1 | (y & G1)]; rewrite G1 in P.
    + left. destruct (o_log o); [reflexivity | discriminate P].
    + cbn [flat_map] in P. rewrite app_nil_r in P. destruct (o_log o) as [| z l] eqn:El; [left; reflexivity |]. right. exists j, y. split; [exact Ej |]. split; [exact G1 |]. destruct y as [q | e |]; cbn [answer app] in P |- *; [| | discriminate P]; injection P as <- P;
        destruct l; [reflexivity | discriminate P | reflexivity | discriminate P].
  - intros R Dk. destruct (RR R) as (DC & DS & _ & RS). destruct (call_served _ _ _ _ _ _ _ _ _ _ HC HS _ _ _ DS C) as (j & Ej). exists j. split; [exact Ej |]. eapply D2; [exact DC | exact RS | exact Dk | left; discriminate | exact Ej].
Qed.
Print Assumptions C86_response.
Example C86_response_example : map (fun o => (o_kind o, o_log o)) (k_ports (p_a ex_p)) = [(ReqRR, [NItem (ex_pay 6)]); (ReqRS, [NItem (ex_pay 7); NFail 513 [1]]); (ReqRC, [NItem (ex_pay 9)])] /\
  map o_log (k_ports (p_b ex_p)) = [[NFail 513 RustCallModel.no_data]; [NItem (ex_pay 4); NItem (ex_pay 10); NFail 513 channel_failed]].
Proof. vm_compute. split; reflexivity. Qed.

(** C86: the receiver of a stream gets a beginning of what its handler gave, to the first error; at rest it has all of that, unless it was dropped. *)
Theorem C86_stream : forall sd ms p sdC mC c mS s k o, p_moves (new_pair sd) ms = Some p -> few ms -> facing sd ms p sdC mC c mS s -> nth_error (k_ports c) k = Some o -> own sdC (o_sid o) -> o_kind o = ReqRS ->
  exists x, call_of sdC mC (o_sid o) (KCall CStream x) /\
    (o_log o = [] \/ exists j, nth_error (received (k_hist s)) j = Some (VStream, o_sid o, x) /\ prefix (o_log o) (news_of (given j mS))) /\
    (at_rest p -> drops k mC = false -> exists j, nth_error (received (k_hist s)) j = Some (VStream, o_sid o, x) /\ o_log o = news_of (given j mS)).
Proof.
  intros sd ms p sdC mC c mS s k o H F V E O K. destruct (faced _ _ _ _ _ _ _ _ H F V) as (sdS & kC & kS & dC & dS & AB & HC & HS & LC & LS & _ & _ & RR).
  destruct (down_stream _ _ _ _ _ _ _ _ _ _ AB HC HS LC LS _ _ E O K) as (x & C & D1 & D2). exists x. split; [exact C |]. split.
  - destruct D1 as [D1 | (j & q & Ej & Eq & P)]; [left; exact D1 |]. specialize (Eq _ eq_refl). subst q. right. exists j. auto.
  - intros R Dk. destruct (RR R) as (DC & DS & _ & RS). destruct (call_served _ _ _ _ _ _ _ _ _ _ HC HS _ _ _ DS C) as (j & Ej). exists j. split; [exact Ej |]. eapply D2; [exact DC | exact RS | exact Dk | left; discriminate | exact Ej].
Qed.
Print Assumptions C86_stream.
Example C86_stream_example : given 1 (side_b ex_ms) = [SOk (ex_pay 7); SErr [1]; SOk (ex_pay 8)] /\ news_of (given 1 (side_b ex_ms)) = [NItem (ex_pay 7); NFail 513 [1]] /\ own Guest 4.
Proof. vm_compute. split; [reflexivity |]. split; reflexivity. Qed.

(** C86: the same for what comes back on a channel, when neither end dropped what it receives there. *)
Theorem C86_channel_output : forall sd ms p sdC mC c mS s k o, p_moves (new_pair sd) ms = Some p -> few ms -> facing sd ms p sdC mC c mS s -> nth_error (k_ports c) k = Some o -> own sdC (o_sid o) -> o_kind o = ReqRC ->
  call_of sdC mC (o_sid o) KChannel /\
  (o_log o = [] \/ exists j x, nth_error (received (k_hist s)) j = Some (VChannel, o_sid o, x) /\ prefix (o_log o) (news_of (given j mS))) /\
  (at_rest p -> drops k mC = false -> (forall k' o', nth_error (k_ports s) k' = Some o' -> o_sid o' = o_sid o -> drops k' mS = false) ->
   forall j x, nth_error (received (k_hist s)) j = Some (VChannel, o_sid o, x) -> o_log o = news_of (given j mS)).
Proof.
  intros sd ms p sdC mC c mS s k o H F V E O K. destruct (faced _ _ _ _ _ _ _ _ H F V) as (sdS & kC & kS & dC & dS & AB & HC & HS & LC & LS & _ & _ & RR).
  destruct (down_channel _ _ _ _ _ _ _ _ _ _ AB HC HS LC LS _ _ E O K) as (C & D1 & D2). split; [exact C |]. split.
  - destruct D1 as [D1 | (j & q & Ej & _ & P)]; [left; exact D1 | right; exists j, q; auto].
  - intros R Dk D j x Ej. destruct (RR R) as (DC & DS & _ & RS). eapply D2; [exact DC | exact RS | exact Dk | right; exact D | exact Ej].
Qed.
Print Assumptions C86_channel_output.
Example C86_channel_output_example : given 2 (side_b ex_ms) = [SOk (ex_pay 9)] /\ In (EChannel 0 6) (k_hist (p_a ex_p)).
Proof. vm_compute. tauto. Qed.

(** C86: the handler of a channel gets a beginning of the input of that channel, to the first error, which has another text there; at rest it has all of it, when neither end dropped what it
    receives there and there are no more than 2^31 signals. *)
Theorem C86_channel_input : forall sd ms p sdC mC c mS s k o, p_moves (new_pair sd) ms = Some p -> few ms -> facing sd ms p sdC mC c mS s -> nth_error (k_ports s) k = Some o -> own sdC (o_sid o) ->
  exists i, In (EChannel i (o_sid o)) (k_hist c) /\ prefix (o_log o) (input_of (fed i mC)) /\
    (at_rest p -> drops k mS = false -> (forall k' o', nth_error (k_ports c) k' = Some o' -> o_sid o' = o_sid o -> drops k' mC = false) -> len (until_complete (fed i mC)) <= 2 ^ 31 -> o_log o = input_of (fed i mC)).
Proof.
  intros sd ms p sdC mC c mS s k o H F V E O. destruct (faced _ _ _ _ _ _ _ _ H F V) as (sdS & kC & kS & dC & dS & AB & HC & HS & LC & LS & QC & BC & RR).
  destruct (up_channel _ _ _ _ _ _ _ _ _ _ AB HC HS LC LS QC BC _ _ E O) as (i & Hi & P & D). exists i. split; [exact Hi |]. split; [exact P |].
  intros R Dk Dc L. destruct (RR R) as (DC & DS & RC & RS). apply D; auto.
Qed.
Print Assumptions C86_channel_input.
Example C86_channel_input_example : input_of (fed 0 (side_a ex_ms)) = [NItem (ex_pay 4); NItem (ex_pay 10); NFail 513 channel_failed] /\ own Guest 6 /\ at_rest ex_p.
Proof. split; [vm_compute; reflexivity |]. split; [vm_compute; reflexivity | exact ex_rest]. Qed.
(** C86: a channel reaches the other end exactly if its input begins with an item. *)
Theorem C86_channel_request : forall sd ms p sdC mC c mS s i sid, p_moves (new_pair sd) ms = Some p -> few ms -> facing sd ms p sdC mC c mS s -> In (EChannel i sid) (k_hist c) ->
  ((exists j x, nth_error (received (k_hist s)) j = Some (VChannel, sid, x)) -> exists x r, fed i mC = SOk x :: r) /\
  (at_rest p -> forall x r, fed i mC = SOk x :: r -> exists j, nth_error (received (k_hist s)) j = Some (VChannel, sid, x)).
Proof.
  intros sd ms p sdC mC c mS s i sid H F V Hi. destruct (faced _ _ _ _ _ _ _ _ H F V) as (sdS & kC & kS & dC & dS & AB & HC & HS & LC & LS & QC & BC & RR).
  destruct (channel_asked _ _ _ _ _ _ _ _ _ _ HC HS LC LS BC _ _ Hi) as (A & B). split; [exact A |]. intro R. destruct (RR R) as (DC & DS & RC & RS). intros x r. apply B; auto.
Qed.
Print Assumptions C86_channel_request.
Example C86_channel_request_example : fed 0 (side_a ex_ms) = [SOk (ex_pay 4); SOk (ex_pay 10); SErr [2]].
Proof. vm_compute. reflexivity. Qed.

(** C86: the two never answer each other's frames with errors of their own. *)
Theorem C86_no_errors : forall sd ms p, p_moves (new_pair sd) ms = Some p -> few ms -> forall f, In f (said ByFrame (p_a p)) \/ In f (said ByFrame (p_b p)) -> exists sid, f = RCancel sid.
Proof.
  intros sd ms p H F f Hf. destruct (good_reached _ _ _ H F) as ((Q1 & Q2) & _).
  assert (X : forall s, In f (said ByFrame s) -> In (ByFrame, f) (k_out s)).
  { intros s Hs. unfold said in Hs. apply in_map_iff in Hs as ((au, g) & Eg & Hg). cbn [snd] in Eg. subst g. apply filter_In in Hg as (Hg & A). destruct au; try discriminate A. exact Hg. }
  destruct Hf as [Hf | Hf]; [exact (Q1 _ (X _ Hf)) | exact (Q2 _ (X _ Hf))].
Qed.
Print Assumptions C86_no_errors.
Example C86_no_errors_example : exists p, p_moves (new_pair Host) [PA (KCall CStream (ex_pay 1)); PToB; PB (KServe 0); PA (KDrop 0); PB (KGive 0 (SOk (ex_pay 2))); PB (KServe 0); PToA] = Some p /\ said ByFrame (p_a p) = [RCancel 1].
Proof. vm_compute. eexists. split; reflexivity. Qed.
(** C86: and neither panics at a frame of the other, unless a receiver was dropped. *)
Theorem C86_no_panic : forall sd ms p, p_moves (new_pair sd) ms = Some p -> few ms ->
  (p_move p PToA = None -> p_da p = length (k_out (p_b p)) \/ exists k, drops k (side_a ms) = true) /\
  (p_move p PToB = None -> p_db p = length (k_out (p_a p)) \/ exists k, drops k (side_b ms) = true).
Proof.
  intros sd ms p H F. destruct (pair_reached _ _ _ H F) as (kA & kB & HA & HB).
  assert (X : forall sd ms kms s t d, half sd ms kms s t d -> (match nth_error (k_out t) d with Some (_, f) => k_move s (KFrame f) = None | None => True end) -> d = length (k_out t) \/ exists k, drops k ms = true).
  { intros sd0 ms0 kms s t d V Q. destruct (nth_error (k_out t) d) as [[au f] |] eqn:E; [right | left; apply nth_error_None in E; pose proof (hf_d _ _ _ _ _ _ V); lia].
    apply (panic_iff s f (settled_reached _ _ _ (hf_run _ _ _ _ _ _ V))) in Q. destruct Q as (x & y & k & h & (Eh & _) & _ & _ & D & _). exists k. apply dropped_in in D.
    assert (Hd : In (EDrop k) (k_hist s)) by (rewrite Eh; apply in_or_app; right; right; exact D). rewrite (hist_reached _ _ _ (hf_run _ _ _ _ _ _ V)) in Hd. apply drops_at in Hd.
    assert (Y : In (KDrop k) (filter not_frame kms)) by (apply filter_In; split; [exact Hd | reflexivity]). rewrite (hf_ms _ _ _ _ _ _ V) in Y. unfold drops. apply existsb_exists. exists (KDrop k). split; [exact Y | apply Nat.eqb_refl]. }
  split; intro Q; cbn [p_move] in Q.
  - apply (X _ _ _ _ _ _ HA). destruct (nth_error (k_out (p_b p)) (p_da p)) as [[au f] |]; [| exact Logic.I]. destruct (k_move (p_a p) (KFrame f)); [discriminate | reflexivity].
  - apply (X _ _ _ _ _ _ HB). destruct (nth_error (k_out (p_a p)) (p_db p)) as [[au f] |]; [| exact Logic.I]. destruct (k_move (p_b p) (KFrame f)); [discriminate | reflexivity].
Qed.
Print Assumptions C86_no_panic.
Example C86_no_panic_example : exists p, p_moves (new_pair Host) [PA (KCall CStream (ex_pay 1)); PToB; PB (KServe 0); PA (KDrop 0); PB (KGive 0 (SErr [2])); PB (KServe 0)] = Some p /\ p_move p PToA = None.
Proof. vm_compute. eexists. split; reflexivity. Qed.

(** ** Claims that do not hold *)

(** A channel whose input has an item reaches the other end. *)
Definition channels_reach : Prop := forall sd ms p i sid x, p_moves (new_pair sd) ms = Some p -> at_rest p -> In (EChannel i sid) (k_hist (p_a p)) -> In (SOk x) (fed i (side_a ms)) -> exists j y, nth_error (received (k_hist (p_b p))) j = Some (VChannel, sid, y).
(** Not when an error comes first: it uses up the credit for the request. *)
Definition stuck_ms : list pmove := [PA KChannel; PA (KFeed 0 (SErr [1])); PA (KFeed 0 (SOk (ex_pay 2))); PA (KCaller 0); PToB].
Definition stuck_p : pair := match p_moves (new_pair Guest) stuck_ms with Some p => p | None => new_pair Guest end.
Theorem C86_channels_reach_refuted : ~ channels_reach.
Proof.
  intro Q. destruct (Q Guest stuck_ms stuck_p 0%nat 2 (ex_pay 2)) as (j & y & E).
  - vm_compute. reflexivity.
  - apply (rest_by _ 1); vm_compute; first [reflexivity | lia].
  - vm_compute. tauto.
  - vm_compute. tauto.
  - revert E. replace (received (k_hist (p_b stuck_p))) with (@nil (skind * N * pay)) by (vm_compute; reflexivity). destruct j; discriminate.
Qed.
Print Assumptions C86_channels_reach_refuted.

(** What a handler gives on a channel reaches a caller that did not drop its receiver. *)
Definition output_arrives : Prop := forall sd ms p k o j x, p_moves (new_pair sd) ms = Some p -> at_rest p -> nth_error (k_ports (p_a p)) k = Some o -> o_kind o = ReqRC -> own sd (o_sid o) -> drops k (side_a ms) = false ->
  nth_error (received (k_hist (p_b p))) j = Some (VChannel, o_sid o, x) -> o_log o = news_of (given j (side_b ms)).
(** Not when the handler dropped its input: the Cancel for that ends both directions. *)
Definition cut_ms : list pmove :=
  [PA KChannel; PA (KFeed 0 (SOk (ex_pay 1))); PA (KCaller 0); PToB; PB (KServe 0); PToA; PA (KCaller 0); PB (KDrop 0); PA (KFeed 0 (SOk (ex_pay 2))); PA (KCaller 0); PToB; PToA;
   PB (KGive 0 (SOk (ex_pay 3))); PB (KServe 0); PToA].
Definition cut_p : pair := match p_moves (new_pair Guest) cut_ms with Some p => p | None => new_pair Guest end.
Theorem C86_output_arrives_refuted : ~ output_arrives.
Proof.
  intro Q. assert (X : exists o, nth_error (k_ports (p_a cut_p)) 0 = Some o /\ o_kind o = ReqRC /\ o_sid o = 2 /\ o_log o = []) by (vm_compute; eexists; repeat split). destruct X as (o & Eo & K & S & L).
  assert (Z : o_log o = news_of (given 0 (side_b cut_ms))).
  { eapply (Q Guest cut_ms cut_p 0%nat o 0%nat).
    - vm_compute. reflexivity.
    - apply (rest_by _ 1); vm_compute; first [reflexivity | lia].
    - exact Eo.
    - exact K.
    - rewrite S. reflexivity.
    - reflexivity.
    - rewrite S. vm_compute. reflexivity. }
  rewrite L in Z. vm_compute in Z. discriminate Z.
Qed.
Print Assumptions C86_output_arrives_refuted.

(** The handler of a channel is told the caller's error. *)
Definition errors_told : Prop := forall sd ms p k o i, p_moves (new_pair sd) ms = Some p -> few ms -> nth_error (k_ports (p_b p)) k = Some o -> In (EChannel i (o_sid o)) (k_hist (p_a p)) -> prefix (o_log o) (news_of (fed i (side_a ms))).
Theorem C86_errors_told_refuted : ~ errors_told.
Proof.
  intro Q. assert (X : exists o, nth_error (k_ports (p_b ex_p)) 1 = Some o /\ o_sid o = 6 /\ o_log o = [NItem (ex_pay 4); NItem (ex_pay 10); NFail 513 channel_failed]) by (vm_compute; eexists; repeat split). destruct X as (o & Eo & S & L).
  destruct (Q Guest ex_ms ex_p 1%nat o 0%nat ex_by ex_few Eo) as (w & E); [rewrite S; vm_compute; tauto |]. rewrite L in E. vm_compute in E. discriminate E.
Qed.
Print Assumptions C86_errors_told_refuted.

(** A handler that was told that nobody listens any more says nothing more for the stream. *)
Definition cancel_stops : Prop := forall sd ms p ms' p' j v sid x, p_moves (new_pair sd) ms = Some p -> nth_error (received (k_hist (p_b p))) j = Some (v, sid, x) -> In (EFrame (RCancel sid)) (k_hist (p_b p)) ->
  p_moves p ms' = Some p' -> said (ByServe j) (p_b p') = said (ByServe j) (p_b p).
Definition told_ms : list pmove := [PA (KCall CStream (ex_pay 1)); PToB; PB (KServe 0); PA (KDrop 0); PB (KGive 0 (SOk (ex_pay 2))); PB (KServe 0); PToA; PToB].
Definition more_ms : list pmove := [PB (KGive 0 (SOk (ex_pay 3))); PB (KServe 0)].
Definition told_p : pair := match p_moves (new_pair Guest) told_ms with Some p => p | None => new_pair Guest end.
Definition more_p : pair := match p_moves told_p more_ms with Some p => p | None => new_pair Guest end.
Theorem C86_cancel_stops_refuted : ~ cancel_stops.
Proof.
  intro Q. assert (X : said (ByServe 0) (p_b more_p) = said (ByServe 0) (p_b told_p)).
  { eapply (Q Guest told_ms told_p more_ms more_p 0%nat VStream 2 (ex_pay 1)); [vm_compute; reflexivity | vm_compute; reflexivity | vm_compute; tauto | vm_compute; reflexivity]. }
  vm_compute in X. discriminate X.
Qed.
Print Assumptions C86_cancel_stops_refuted.
