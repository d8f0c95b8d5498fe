(** C85: what a Rust WasmSocket makes of any frames of any peer; each theorem with its assumptions and an example. *)
From Coq Require Import List NArith ZArith Lia Bool.
From Verif Require Import Base ProxyModel RustFramesModel RustSocketModel RustSocketSpec RustSocketProofs RustSocketCalls.
From Verif Require RustCallModel RustStreamModel.
Import ListNotations.
Open Scope N_scope.

(** A guest that calls, streams and opens a channel, while a peer does the same and gives credit. *)
Definition ex_p (d : N) : pay := ([d], [9]).
Definition ex_req (ty : rtype) (sid d : N) : rrequest := mkRRequest ty sid [9] [d] false false 0.
Definition ex_pay (sid d : N) (nx co : bool) : rframe := RPayloadFrame (mkRPayload sid [9] [d] false co nx).
Definition ex_ms : list kmove :=
  [KCall CRR (ex_p 1); KCall CStream (ex_p 2); KChannel; KFeed 0 (SOk (ex_p 3)); KFeed 0 (SErr [7]); KFeed 0 (SOk (ex_p 4)); KCaller 0;
   KFrame (RRequestStream (ex_req TRequestStream 2 5)); KFrame (RRequestChannel (ex_req TRequestChannel 3 6)); KServe 0; KServe 1;
   KGive 0 (SOk (ex_p 8)); KServe 0; KGive 1 (SErr [1]); KServe 1; KGive 1 (SOk (ex_p 2)); KQuit 1; KServe 1;
   KFrame (ex_pay 4 11 true false); KFrame (ex_pay 2 12 true false); KFrame (ex_pay 2 13 true false); KDrop 1; KFrame (ex_pay 4 14 true false);
   KFrame (RRequestN 6 1); KCaller 0; KCaller 0; KFrame (RRequestN 6 0); KFrame (RRequestN 8 4); KFrame (ex_pay 6 15 true true); KFrame (ex_pay 6 16 true true);
   KFrame (ex_pay 3 17 true false)].
Definition ex_of (ms : list kmove) : option sock := k_moves (new_sock Guest) ms.
Definition ex_s : sock := match ex_of ex_ms with Some s => s | None => new_sock Guest end.
Lemma ex_by : k_moves (new_sock Guest) ex_ms = Some ex_s.
Proof. vm_compute. reflexivity. Qed.

(** C85: the history is what the moves say: the calls take the ids 2, 4, 6... (a host 1, 3, 5...) and a handler is registered for each call that gets an answer and for
    each channel a peer opens. *)
Theorem C85_history : forall sd ms s, k_moves (new_sock sd) ms = Some s -> k_hist s = events (first_id sd) 0 0 ms.
Proof. exact hist_reached. Qed.
Print Assumptions C85_history.
Example C85_history_example : In (EOpen 3 ReqRC 3) (k_hist ex_s) /\ In (EChannel 0 6) (k_hist ex_s) /\ length (k_hist ex_s) = 18%nat.
Proof. vm_compute. tauto. Qed.

(** C85: the frames sent for calls are their requests, in order, with these ids. *)
Theorem C85_calls : forall sd ms s, k_moves (new_sock sd) ms = Some s -> said ByApp s = requests (first_id sd) ms.
Proof. intros sd ms s H. exact (proj2 (next_reached _ _ _ H)). Qed.
Print Assumptions C85_calls.
Example C85_calls_example : said ByApp ex_s = [RRequestResponse (mkRRequest TRequestResponse 2 [9] [1] false false 0); RRequestStream (mkRRequest TRequestStream 4 [9] [2] false false 0)].
Proof. vm_compute. reflexivity. Qed.

(** C85: what was put into a handler's receiver is, from the payload of the request if a peer opened the channel on, what the frames of its stream tell while the receiver
    is there, up to the first that ends it or until another handler is registered for the stream. *)
Theorem C85_delivered : forall sd ms s before after k h sid, k_moves (new_sock sd) ms = Some s -> opened (k_hist s) before after k h sid ->
  exists o, nth_error (k_ports s) k = Some o /\ o_kind o = h /\ o_sid o = sid /\ o_log o = opens_with before ++ heard h (mine k sid true after).
Proof.
  intros sd ms s before after k h sid H O. destruct (port_of _ _ _ _ _ _ (settled_reached _ _ _ H) O) as (o & Eo & <- & <- & (_ & K & _)). exists o. auto.
Qed.
Print Assumptions C85_delivered.
Example C85_delivered_example : map o_log (k_ports ex_s) = [[NItem ([12], [9])]; [NItem ([11], [9])]; [NItem ([15], [9])]; [NItem ([6], [9]); NItem ([17], [9])]].
Proof. vm_compute. reflexivity. Qed.
(** C85: and no receiver gets anything that is not registered so. *)
Theorem C85_receivers : forall sd ms s k o, k_moves (new_sock sd) ms = Some s -> nth_error (k_ports s) k = Some o ->
  exists before after, opened (k_hist s) before after k (o_kind o) (o_sid o) /\ o_open o = negb (dropped k after).
Proof.
  intros sd ms s k o H E. destruct (settled_reached _ _ _ H) as ((_ & _ & K) & _). destruct (K _ _ E) as (b & a & O & (K1 & _)). exists b, a. auto.
Qed.
Print Assumptions C85_receivers.
Example C85_receivers_example : map o_open (k_ports ex_s) = [true; false; true; true].
Proof. vm_compute. reflexivity. Qed.

(** C85: each request received is served by one task, in order, with its payload. *)
Theorem C85_received : forall sd ms s, k_moves (new_sock sd) ms = Some s -> map (fun v => (v_kind v, v_sid v, v_data v)) (k_serves s) = received (k_hist s).
Proof. intros sd ms s H. exact (proj1 (serves_reached _ _ _ H)). Qed.
Print Assumptions C85_received.
Example C85_received_example : received (k_hist ex_s) = [(VStream, 2, ([5], [9])); (VChannel, 3, ([6], [9]))].
Proof. vm_compute. reflexivity. Qed.

(** C85: what the task of a request has said is a beginning of what is owed for what the implementation gave, whatever else goes on; and all of it once the task cannot go on. *)
Theorem C85_served : forall sd ms s j v sid p, k_moves (new_sock sd) ms = Some s -> nth_error (received (k_hist s)) j = Some (v, sid, p) ->
  prefix (said (ByServe j) s) (owed v sid (given j ms) (negb (quit j ms))) /\
  (k_move s (KServe j) = None -> said (ByServe j) s = owed v sid (given j ms) (negb (quit j ms))).
Proof.
  intros sd ms s j v sid p H E. destruct (serves_reached _ _ _ H) as (R1 & R2 & _). rewrite <- R1 in E. rewrite nth_error_map in E.
  destruct (nth_error (k_serves s) j) as [w |] eqn:Ew; [| discriminate]. cbn [option_map] in E. assert (Q : serve_key w = (v, sid, p)) by congruence. unfold serve_key in Q.
  assert (Q1 : v = v_kind w) by congruence. assert (Q2 : sid = v_sid w) by congruence. subst v sid. clear E Q.
  destruct (proj1 (returns_reached _ _ _ H) _ _ Ew) as (F & G). rewrite <- F, <- G. split; [apply serve_prefix; apply R2; exact Ew |].
  intro N. cbn [k_move] in N. rewrite Ew in N. destruct (serve_step w) as [[w' l] |] eqn:Es; [discriminate |]. apply serve_complete; [apply R2; exact Ew | exact Es].
Qed.
Print Assumptions C85_served.
Example C85_served_example : said (ByServe 1) ex_s = [RRequestN 3 0x7fffffff; RErrorFrame 3 513 [1]; RPayloadFrame (mkRPayload 3 [9] [2] false false true)] /\ k_move ex_s (KServe 1) <> None /\ k_move ex_s (KServe 0) = None.
Proof. vm_compute. split; [reflexivity |]. split; [discriminate | reflexivity]. Qed.
(** C85: tasks say nothing for requests that were not received. *)
Theorem C85_unasked : forall sd ms s j, k_moves (new_sock sd) ms = Some s -> nth_error (received (k_hist s)) j = None -> said (ByServe j) s = [].
Proof.
  intros sd ms s j H E. destruct (serves_reached _ _ _ H) as (R1 & _ & R3). apply R3. apply nth_error_None in E. rewrite <- R1, map_length in E. exact E.
Qed.
Print Assumptions C85_unasked.
Example C85_unasked_example : nth_error (received (k_hist ex_s)) 2 = None.
Proof. vm_compute. reflexivity. Qed.

(** C85: what the task of a channel has said is a beginning of what is owed for its input: the first item as the request, the others as payloads, an error as an error, and
    the end; of these, the end aside, one and as many as the peer gave credit for. *)
Theorem C85_channel : forall sd ms s i sid, k_moves (new_sock sd) ms = Some s -> calls ms <= 2 ^ 31 -> In (EChannel i sid) (k_hist s) ->
  prefix (said (ByCaller i) s) (channel_owed sid (fed i ms) (negb (cut i ms))) /\
  exists before after n, k_hist s = before ++ EChannel i sid :: after /\ N.of_nat n <= 1 + total (granted sid after) /\
    (said (ByCaller i) s = channel_frames sid true (firstn n (until_complete (fed i ms))) \/ said (ByCaller i) s = channel_frames sid true (firstn n (until_complete (fed i ms))) ++ [end_frame sid]).
Proof.
  intros sd ms s i sid H L Hi. destruct (channel_of _ _ _ _ _ H L Hi) as (b & r & a & Eh & Ea & Sa & K & F & G & P & _). rewrite <- F, <- G. split; [rewrite <- Sa; apply caller_prefix; exact K |].
  exists b, r, (u_pos (a_in a)). split; [exact Eh |]. destruct K as (K1 & K2 & _ & K4 & _). split.
  - pose proof (total_le (a_used a) (a_grants a)). pose proof (prefix_total _ _ P). lia.
  - rewrite K2, Sa, <- (good_first _ _ K1). destruct (ended a); [right; reflexivity | left; rewrite app_nil_r; reflexivity].
Qed.
Print Assumptions C85_channel.
Example C85_channel_example : said (ByCaller 0) ex_s = [RRequestChannel (mkRRequest TRequestChannel 6 [9] [3] false false 0x7fffffff); RErrorFrame 6 513 channel_failed] /\ In (EChannel 0 6) (k_hist ex_s) /\ calls ex_ms = 3.
Proof. vm_compute. tauto. Qed.
(** C85: and once the task cannot go on, it has said all of it, or it has used all the credit there is. *)
Theorem C85_channel_rest : forall sd ms s i sid, k_moves (new_sock sd) ms = Some s -> calls ms <= 2 ^ 31 -> In (EChannel i sid) (k_hist s) -> k_move s (KCaller i) = None ->
  said (ByCaller i) s = channel_owed sid (fed i ms) (negb (cut i ms)) \/
  exists before after n, k_hist s = before ++ EChannel i sid :: after /\ N.of_nat n = 1 + total (granted sid after) /\ (n <= length (until_complete (fed i ms)))%nat /\
    said (ByCaller i) s = channel_frames sid true (firstn n (until_complete (fed i ms))).
Proof.
  intros sd ms s i sid H L Hi Q. destruct (channel_of _ _ _ _ _ H L Hi) as (b & r & a & Eh & Ea & Sa & K & F & G & _ & P). cbn [k_move] in Q. unfold caller_step in Q. rewrite Ea in Q.
  destruct K as (K1 & K2 & K3 & K4 & K5 & K6 & K7). unfold ended in *. rewrite <- F, <- G, <- Sa in *. destruct (a_phase a) eqn:Ph.
  - destruct (next_of (a_in a)) as [[x |] |] eqn:En; [| discriminate |].
    + destruct (N.eqb_spec (a_n a) 0); [lia |]. destruct x; discriminate.
    + left. destruct (good_idle _ K1 En) as (U & C). unfold channel_owed. rewrite U, C. exact K2.
  - right. exists b, r, (u_pos (a_in a)). destruct (nth_error (a_grants a) (a_used a)) eqn:Eg; [discriminate |]. apply nth_error_None in Eg.
    rewrite (firstn_all2 (a_grants a)) in K4 by lia. rewrite (P ltac:(discriminate)) in K4. split; [exact Eh |]. split; [lia |]. split.
    + destruct (good_until _ _ K1) as (c & U). rewrite U, app_length, firstn_length_le by apply K1. lia.
    + rewrite K2, app_nil_r, <- (good_first _ _ K1). reflexivity.
  - left. destruct (good_over _ K1) as (U & C). unfold channel_owed. rewrite U, C. exact K2.
Qed.
Print Assumptions C85_channel_rest.
Example C85_channel_rest_example : k_move ex_s (KCaller 0) = None /\ granted 6 (k_hist ex_s) = [1] /\ fed 0 ex_ms = [SOk (ex_p 3); SErr [7]; SOk (ex_p 4)].
Proof. vm_compute. split; [reflexivity |]. split; reflexivity. Qed.
(** C85: the counter of credit is never decremented below nothing. *)
Theorem C85_credit : forall sd ms s i a, k_moves (new_sock sd) ms = Some s -> calls ms <= 2 ^ 31 -> nth_error (k_callers s) i = Some a -> a_phase a = Reading -> 0 < a_n a.
Proof.
  intros sd ms s i a H L E P. destruct (ci_ok _ _ _ (callers_reached _ _ _ H L) _ _ E) as (_ & _ & _ & _ & _ & _ & K). rewrite P in K. exact K.
Qed.
Print Assumptions C85_credit.
Example C85_credit_example : exists s a, ex_of (firstn 25 ex_ms) = Some s /\ nth_error (k_callers s) 0 = Some a /\ a_phase a = Reading /\ a_n a = 1.
Proof. vm_compute. eexists. eexists. split; [reflexivity |]. split; [reflexivity |]. split; reflexivity. Qed.

(** C85: a frame is answered at once only by a Cancel when the receiver of the stream or channel is gone, or by an error when a RequestN asks for nothing or comes for no channel. *)
Theorem C85_replies : forall sd ms s, k_moves (new_sock sd) ms = Some s -> calls ms <= 2 ^ 31 -> Forall (reply_ok (k_hist s)) (said ByFrame s).
Proof. exact reply_reached. Qed.
Print Assumptions C85_replies.
Example C85_replies_example : said ByFrame ex_s = [RCancel 4; RErrorFrame 6 513 RustCallModel.invalid_n; RErrorFrame 8 513 RustCallModel.missing_id].
Proof. vm_compute. reflexivity. Qed.

(** C85: the socket panics at a frame exactly if it is an error for a registered handler, or a Cancel for a call that waits for its one answer, and the receiver is gone. *)
Theorem C85_panic : forall sd ms s f, k_moves (new_sock sd) ms = Some s -> k_move s (KFrame f) = None <-> fatal (k_hist s) f.
Proof. intros sd ms s f H. exact (panic_iff s f (settled_reached _ _ _ H)). Qed.
Print Assumptions C85_panic.
Example C85_panic_example : k_move ex_s (KFrame (RErrorFrame 4 513 [1])) = None /\ k_move ex_s (KFrame (RCancel 4)) <> None /\ k_move ex_s (KFrame (RErrorFrame 3 513 [1])) <> None.
Proof. vm_compute. split; [reflexivity |]. split; discriminate. Qed.

(** ** Claims that do not hold *)

(** A channel whose input ended has been requested, once its task cannot go on. *)
Definition channels_requested : Prop := forall sd ms s i sid, k_moves (new_sock sd) ms = Some s -> In (EChannel i sid) (k_hist s) -> cut i ms = true -> k_move s (KCaller i) = None ->
  exists r, In (RRequestChannel r) (said (ByCaller i) s).
Theorem C85_requested_refuted : ~ channels_requested.
Proof.
  intro H. destruct (H Guest [KChannel; KCut 0; KCaller 0] _ 0%nat 2 eq_refl) as (r & Hr); [right; left; reflexivity | reflexivity | reflexivity |]. vm_compute in Hr. destruct Hr as [Hr | []]. discriminate Hr.
Qed.
Print Assumptions C85_requested_refuted.

(** A channel whose input ended has said so, once its task cannot go on and all its items were sent. *)
Definition channels_end : Prop := forall sd ms s i sid, k_moves (new_sock sd) ms = Some s -> In (EChannel i sid) (k_hist s) -> cut i ms = true -> k_move s (KCaller i) = None ->
  prefix (channel_frames sid true (until_complete (fed i ms))) (said (ByCaller i) s) -> In (end_frame sid) (said (ByCaller i) s).
Definition ex_end : list kmove := [KChannel; KFeed 0 (SOk (ex_p 1)); KCut 0; KCaller 0].
Theorem C85_end_refuted : ~ channels_end.
Proof.
  intro H.
  assert (E : exists s, k_moves (new_sock Guest) ex_end = Some s /\ In (EChannel 0 2) (k_hist s) /\ k_move s (KCaller 0) = None /\ said (ByCaller 0) s = channel_frames 2 true (until_complete (fed 0 ex_end)) /\ ~ In (end_frame 2) (said (ByCaller 0) s)).
  { vm_compute. eexists. split; [reflexivity |]. split; [tauto |]. split; [reflexivity |]. split; [reflexivity |]. intros [X | []]. discriminate X. }
  destruct E as (s & E1 & E2 & E3 & E4 & E5). assert (X := H Guest ex_end s 0%nat 2 E1 E2 eq_refl E3 ltac:(exists []; rewrite app_nil_r; exact E4)). exact (E5 X).
Qed.
Print Assumptions C85_end_refuted.

(** Nothing is said for a request after a Cancel for its stream. *)
Definition cancels_stop : Prop := forall sd ms s sid s' ms' s'' j v p, k_moves (new_sock sd) ms = Some s -> nth_error (received (k_hist s)) j = Some (v, sid, p) ->
  k_move s (KFrame (RCancel sid)) = Some s' -> k_moves s' ms' = Some s'' -> said (ByServe j) s'' = said (ByServe j) s'.
Theorem C85_cancel_refuted : ~ cancels_stop.
Proof.
  intro H. pose proof (H Host [KFrame (RRequestStream (ex_req TRequestStream 2 1)); KServe 0] _ 2 _ [KGive 0 (SOk (ex_p 1)); KServe 0] _ 0%nat VStream ([1], [9]) eq_refl eq_refl eq_refl eq_refl) as X.
  vm_compute in X. discriminate X.
Qed.
Print Assumptions C85_cancel_refuted.

(** A receiver may be dropped without harm. *)
Definition drops_harmless : Prop := forall sd ms s f, k_moves (new_sock sd) ms = Some s -> k_move s (KFrame f) <> None.
Theorem C85_drop_refuted : ~ drops_harmless.
Proof. intro H. exact (H Guest [KCall CRR (ex_p 1); KDrop 0] _ (RErrorFrame 2 513 [1]) eq_refl eq_refl). Qed.
Print Assumptions C85_drop_refuted.

(** The answer to a call is put into its receiver when it comes first and the receiver is there. *)
Definition answers_arrive : Prop := forall sd ms s before after k sid p, k_moves (new_sock sd) ms = Some s -> opened (k_hist s) before after k ReqRR sid ->
  dropped k after = false -> (forall q, ~ In (EFrame (RPayloadFrame q)) (k_hist s)) -> (forall sid, ~ In (EFrame (RCancel sid)) (k_hist s)) -> (forall sid c d, ~ In (EFrame (RErrorFrame sid c d)) (k_hist s)) ->
  rp_sid p = sid -> rp_next p = true -> exists s' o, k_move s (KFrame (RPayloadFrame p)) = Some s' /\ nth_error (k_ports s') k = Some o /\ o_log o = [NItem (rp_data p, rp_metadata p)].
Theorem C85_displaced_refuted : ~ answers_arrive.
Proof.
  intro H. destruct (H Guest [KCall CRR (ex_p 1); KFrame (RRequestChannel (ex_req TRequestChannel 2 6))] _ [] [EFrame (RRequestChannel (ex_req TRequestChannel 2 6)); EOpen 1 ReqRC 2] 0%nat 2 (mkRPayload 2 [] [5] false true true) eq_refl) as (s' & o & E1 & E2 & E3); try reflexivity.
  - split; reflexivity.
  - intros q Q. vm_compute in Q. destruct Q as [Q | [Q | [Q | []]]]; discriminate Q.
  - intros q Q. vm_compute in Q. destruct Q as [Q | [Q | [Q | []]]]; discriminate Q.
  - intros x c d Q. vm_compute in Q. destruct Q as [Q | [Q | [Q | []]]]; discriminate Q.
  - vm_compute in E1. injection E1 as <-. vm_compute in E2. injection E2 as <-. discriminate E3.
Qed.
Print Assumptions C85_displaced_refuted.
