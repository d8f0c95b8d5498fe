(** Executions of a Go host and a Rust guest calling each other. *)
From Coq Require Import List NArith ZArith Bool Lia.
From Coq Require Import ZifyBool ZifyNat ZifyN.
From Verif Require Import Base BaseLemmas FramesModel FramesSpec FramesProofs InvokeModel InvokeSpec InvokeProofs LookupModel LookupSpec LookupProofs StreamIdModel StreamIdSpec StreamIdProofs.
From Verif Require Import MonoModel ProxyModel DispatchModel DispatchSpec DispatchProofs CallModel CallSpec CallInv CallProofs.
From Verif Require Import CustomSpec RustFramesModel RustFramesSpec RustFramesProofs RustOpsModel MixInv RustCallModel RustCallSpec.
Import ListNotations.
Open Scope N_scope.

(** ** Frames *)
Lemma wf_bytes2 : forall v, wf (bytes2 v).
Proof. intro v. repeat constructor; apply N.mod_lt; discriminate. Qed.
Lemma wf_bytes3 : forall v, wf (bytes3 v).
Proof. intro v. repeat constructor; apply N.mod_lt; discriminate. Qed.
Lemma wf_bytes4 : forall v, wf (bytes4 v).
Proof. intro v. repeat constructor; apply N.mod_lt; discriminate. Qed.
Lemma wf_wire_md : forall md, wf md -> wf (wire_metadata md).
Proof. intros md W. unfold wire_metadata. destruct (nonempty md); [apply wf_app; split; [apply wf_bytes3|exact W]|apply wf_nil]. Qed.
Lemma wf_header : forall s t f, wf (wire_header s t f).
Proof. intros. apply wf_app. split; [apply wf_bytes4|apply wf_bytes2]. Qed.

Definition readable_msg (m : msg) : Prop :=
  match m with Req (sid, d, md) => wf d /\ 4 <= len md | Rep (sid, o) => readable_out o end.
Lemma wf_line : forall m, msg_ok m -> readable_msg m -> wf (on_line m).
Proof.
  intros [[[sid d] md]|[sid [[d md]|e]]]; unfold on_line; cbn [msg_frame answer_of wire rf_stream_id rf_type rf_metadata rf_data pf_stream_id pf_metadata pf_data msg_ok readable_msg readable_out]; intros M R.
  - rewrite !wf_app. split; [apply wf_header|]. split; [apply wf_nil|]. split; [apply wf_wire_md; apply M|apply R].
  - rewrite !wf_app. split; [apply wf_header|]. split; [apply wf_wire_md; apply R|apply R].
  - rewrite !wf_app. split; [apply wf_header|]. split; [apply wf_bytes4|apply R].
Qed.
Lemma decode_line : forall m, msg_ok m -> readable_msg m -> exists g, rframe_decode (on_line m) = Ret g /\ consistent g /\ says (go_view g) = msg_frame m.
Proof.
  intros m M R. assert (A := parse_agree _ (wf_line m M R)). rewrite (msg_parse m M) in A. cbn [agree] in A.
  assert (T : readable_text (msg_frame m)) by (destruct m as [[[sid d] md]|[sid [[d md]|e]]]; cbn; [exact Logic.I|exact Logic.I|apply R]).
  destruct A as [[_ (g & E & S & C)]|[NR _]]; [|contradiction]. exists g. auto.
Qed.
Lemma decode_req : forall sid d md, msg_ok (Req (sid, d, md)) -> readable_msg (Req (sid, d, md)) ->
  exists r, rframe_decode (on_line (Req (sid, d, md))) = Ret (RRequestResponse r) /\ rq_sid r = sid /\ rq_data r = d /\ rq_metadata r = md.
Proof.
  intros sid d md M R. destruct (decode_line _ M R) as (g & E & C & S). rewrite E. clear E. destruct g as [p|s|s c x|s n|r|r|r|r]; try discriminate S;
  cbn [go_view go_request says consistent] in S, C; rewrite C in S; cbn [type_number rf_type rf_stream_id rf_metadata rf_data msg_frame] in S; try discriminate S.
  exists r. split; [reflexivity|]. assert (Q := f_equal (fun f => match f with FramesModel.FRequest x => (rf_stream_id x, rf_data x, rf_metadata x) | _ => (0, [], []) end) S). cbn [rf_stream_id rf_data rf_metadata] in Q.
  assert (Q1 := f_equal (fun x => fst (fst x)) Q). assert (Q2 := f_equal (fun x => snd (fst x)) Q). assert (Q3 := f_equal snd Q). cbn [fst snd] in *. auto.
Qed.
Lemma decode_pay : forall sid (v : pay), msg_ok (Rep (sid, inl v)) -> readable_msg (Rep (sid, inl v)) ->
  exists p, rframe_decode (on_line (Rep (sid, inl v))) = Ret (RPayloadFrame p) /\ rp_sid p = sid /\ rp_next p = true /\ (rp_data p, rp_metadata p) = v.
Proof.
  intros sid [d md] M R. destruct (decode_line _ M R) as (g & E & C & S). rewrite E. clear E. destruct g as [p|s|s c x|s n|r|r|r|r]; try discriminate S.
  exists p. split; [reflexivity|]. cbn [go_view says msg_frame answer_of] in S.
  assert (Q := f_equal (fun f => match f with FPayload x => (pf_stream_id x, pf_next x, (pf_data x, pf_metadata x)) | _ => (0, true, ([], [])) end) S). cbn [pf_stream_id pf_next pf_data pf_metadata] in Q.
  assert (Q1 := f_equal (fun x => fst (fst x)) Q). assert (Q2 := f_equal (fun x => snd (fst x)) Q). assert (Q3 := f_equal (fun x => fst (snd x)) Q). assert (Q4 := f_equal (fun x => snd (snd x)) Q). cbn [fst snd] in *. split; [exact Q1|]. split; [exact Q2|congruence].
Qed.
Lemma decode_err : forall sid e, msg_ok (Rep (sid, inr e)) -> readable_msg (Rep (sid, inr e)) -> rframe_decode (on_line (Rep (sid, inr e))) = Ret (RErrorFrame sid 0 e).
Proof.
  intros sid e M R. destruct (decode_line _ M R) as (g & E & C & S). rewrite E. clear E. destruct g as [p|s|s c x|s n|r|r|r|r]; try discriminate S.
  cbn [go_view says msg_frame answer_of] in S. assert (Q := f_equal (fun f => match f with FramesModel.FError a b c => (a, b, c) | _ => (0, 0, []) end) S). cbn in Q. congruence.
Qed.

(** What Rust writes. *)
Definition rust_frame (m : msg) : rframe :=
  match m with Req (sid, d, md) => new_request_response sid (Some md) (Some d) 0 | Rep (sid, o) => rust_answer sid o end.
Definition rust_line (m : msg) : bytes := wire (go_view (rust_frame m)).
Lemma rust_range : forall m, msg_ok m -> frame_in_range (go_view (rust_frame m)) /\ len (frame_metadata (go_view (rust_frame m))) < 2^24.
Proof.
  intros [[[sid d] md]|[sid [[d md]|e]]]; cbn [msg_ok rust_frame rust_answer].
  - intros [S (_ & L & F)]. split; [|exact L]. cbn [go_view go_request new_request_response rrequest_from_payload frame_in_range rf_stream_id rf_type rf_initial_n rf_metadata rf_data rq_type rq_sid rq_metadata rq_data rq_initial_n type_number]. split; [exact S|]. split; [lia|]. split; [reflexivity|exact F].
  - intros [S [L F]]. split; [|exact L]. split; [exact S|exact F].
  - intros [S L]. split; [|reflexivity]. split; [exact S|]. split; [reflexivity|exact L].
Qed.
Lemma rust_bytes : forall m, msg_ok m -> rframe_encode (rust_frame m) = Ret (rust_line m).
Proof. intros m M. apply rframe_encode_wire. apply rust_range. exact M. Qed.
Lemma rust_req_line : forall q, rust_line (Req q) = on_line (Req q).
Proof. intros [[sid d] md]. reflexivity. Qed.
Lemma rust_pay_line : forall sid v, rust_line (Rep (sid, inl v)) = on_line (Rep (sid, inl v)).
Proof. intros sid [d md]. reflexivity. Qed.
Lemma rust_parse : forall m, msg_ok m -> frame_parse (rust_line m) = Ret (Some (on_wire (go_view (rust_frame m)))).
Proof. intros m M. destruct (rust_range m M) as [A B]. exact (frame_parse_wire _ A B). Qed.
Lemma rust_weight : forall m, msg_ok m -> weight (rust_line m) = match m with Req _ => 4%nat | Rep _ => 1%nat end.
Proof. intros m M. unfold weight. rewrite (rust_parse m M). destruct m as [[[sid d] md]|[sid [[d md]|e]]]; reflexivity. Qed.

Lemma ascii_utf8 : forall s, forallb (fun b => b <? 128) s = true -> utf8 s.
Proof.
  intros s A. exists s. rewrite forallb_forall in A. split.
  - apply Forall_forall. intros c Hc. specialize (A c Hc). unfold scalar. lia.
  - induction s as [|c s IH]; [reflexivity|]. cbn [flat_map]. rewrite <- IH by (intros x Hx; apply A; right; exact Hx). unfold utf8_char. rewrite (A c (or_introl eq_refl)). reflexivity.
Qed.

Section Proofs.
Context {Hg Hr : Type}.
Context (go_tbl : ikind -> list (option Hg)) (rust_tbl : list Hr).
Context (Few : DispatchSpec.few go_tbl).
Notation mix := (mix Hg Hr).

(** ** The two directions *)
Definition pick_g (md : bytes) : option Hg :=
  if 8 <=? len md then match nth_error (go_tbl RR) (N.to_nat (number4 md)) with Some (Some h) => Some h | _ => None end else None.
Definition refuse_g (md : bytes) : bytes := if len md <? 8 then invalid_metadata else not_found.
Definition pick_r (md : bytes) : option Hr := nth_error rust_tbl (N.to_nat (number4 md)).
Definition refuse_r (md : bytes) : bytes := no_handler.
Definition keep {A} (x : A) : A := x.
Definition shown_r (o : pay + bytes) : pay + bytes := match o with inr [] => inr no_data | _ => o end.
Definition idg (k : nat) : N := kth_id Server (N.of_nat (S k)).
Definition idr (k : nat) : N := 2 * N.of_nat (S k).
Definition okg (d md : bytes) : Prop := sendable d md /\ wf d /\ 4 <= len md.

Lemma idg_inj : forall i j, N.of_nat (S i) <= 2^30 -> N.of_nat (S j) <= 2^30 -> idg i = idg j -> i = j.
Proof. exact (kth_inj (fun _ => Host) (fun _ _ => @nil (option unit)) Server). Qed.
Lemma idr_inj : forall i j, N.of_nat (S i) <= 2^30 -> N.of_nat (S j) <= 2^30 -> idr i = idr j -> i = j.
Proof. unfold idr. intros. lia. Qed.
Lemma refuse_r_ok : forall d md, okg d md -> sendable_out (inr (refuse_r md)).
Proof. intros. reflexivity. Qed.
Lemma refuse_g_ok : forall d md, sendable d md -> readable_out (inr (refuse_g md)).
Proof. intros. unfold refuse_g. destruct (len md <? 8); (split; [split; [apply ascii_utf8; reflexivity|apply wfb_wf; reflexivity]|reflexivity]). Qed.
Lemma pick_g_some : forall md h, pick_g md = Some h <-> names go_tbl RR md h.
Proof.
  intros md h. unfold pick_g, names. destruct (N.leb_spec 8 (len md)); [|split; [discriminate|lia]].
  destruct (nth_error (go_tbl RR) (N.to_nat (number4 md))) as [[x|]|]; (split; [intro Q; split; [assumption|congruence]|intros [_ Q]; congruence]).
Qed.
Lemma pick_g_none : forall md, pick_g md = None <-> forall h, ~ names go_tbl RR md h.
Proof.
  intro md. split.
  - intros E h Nm. apply pick_g_some in Nm. congruence.
  - intro Nn. destruct (pick_g md) as [h|] eqn:E; [|reflexivity]. apply pick_g_some in E. elim (Nn h E).
Qed.

(** ** What the calls are *)
Definition abs_go (c : call) : acall :=
  mkA (c_sid c) (c_data c) (c_md c) (if c_subscribed c then match results c with [] => Waiting | o :: _ => Done o end else Idle).
Definition gshape (c : call) : Prop :=
  (c_subscribed c = false /\ c_proc c = new_processor) \/
  (c_subscribed c = true /\ c_proc c = mkProc None None [(false, [])]) \/
  (exists o, c_subscribed c = true /\ c_proc c = mkProc None None [(true, [o])]).
Definition abs_rust (c : rcall) : acall :=
  mkA (rc_sid c) (rc_data c) (rc_md c) (match rc_res c with RPending => Waiting | RGot (inl v) => Done (inl v) | RGot (inr (_, m)) => Done (inr m) | RDropped => Idle end).
Definition rshape (c : rcall) : Prop :=
  rc_gone c = false /\ (rc_res c = RPending \/ (exists v, rc_res c = RGot (inl v)) \/ (exists m, rc_res c = RGot (inr (0, m)))).
Definition gtask (a : act Hg nat) : atask Hg :=
  match a with ASend (FramesModel.FError sid _ m) => TSend sid m | ARun _ h sid d m _ _ => TRun h sid d m | _ => TSend 0 [] end.
Definition gtask_ok (a : act Hg nat) : Prop :=
  (exists sid m, a = ASend (FramesModel.FError sid 0 m)) \/ (exists h sid d m p n, a = ARun RR h sid d m p n).
Definition rtask (t : N * bytes) : atask Hr := TSend (fst t) (snd t).

Definition greg (calls : list call) (reg : lookup nat) : Prop :=
  exists ops, lrun empty_lookup ops = Some reg /\
    (forall id, In id (ids (chain_after ops)) -> exists k c, nth_error calls k = Some c /\ c_sid c = id /\ c_subscribed c = true) /\
    (forall k c, nth_error calls k = Some c -> a_st (abs_go c) = Waiting -> chain_get (chain_after ops) (c_sid c) = Some k).

Record xinv (st : mix) (mg mr : list msg) : Prop := {
  x_tog : to_go st = map rust_line mg;
  x_tor : to_rust st = map on_line mr;
  x_gdir : dinv pick_r refuse_r keep keep idg okg sendable_out (map abs_go (p_calls (x_go st))) (reqs mr) (map rtask (rs_tasks (x_rust st))) (rs_runs (x_rust st)) (reps mg);
  x_rdir : dinv pick_g refuse_g keep shown_r idr sendable readable_out (map abs_rust (rs_calls (x_rust st))) (reqs mg) (map gtask (p_tasks (x_go st))) (p_runs (x_go st)) (reps mr);
  x_gshape : forall k c, nth_error (p_calls (x_go st)) k = Some c -> gshape c;
  x_greg : greg (p_calls (x_go st)) (p_even (x_go st));
  x_gcount : p_counter (x_go st) = len (p_calls (x_go st));
  x_gtasks : Forall gtask_ok (p_tasks (x_go st));
  x_rlen : len (rs_calls (x_rust st)) < 2^30;
  x_rnext : rs_next (x_rust st) = 2 * (len (rs_calls (x_rust st)) + 1);
  x_rshape : forall k c, nth_error (rs_calls (x_rust st)) k = Some c -> rshape c;
  x_rreg : forall k c, nth_error (rs_calls (x_rust st)) k = Some c -> rc_res c = RPending -> map_get (rc_sid c) (rs_handlers (x_rust st)) = Some k }.

Lemma xinv_init : xinv mix_create [] [].
Proof.
  constructor; try reflexivity; try (intros [|k] c E; discriminate E).
  - apply dinv_init.
  - apply dinv_init.
  - exists []. split; [reflexivity|]. split; [intros id []|]. intros [|k] c E; discriminate E.
  - constructor.
Qed.

Lemma nth_abs : forall A B (f : A -> B) l k c, nth_error l k = Some c -> nth_error (map f l) k = Some (f c).
Proof. intros A B f l k c E. rewrite nth_error_map, E. reflexivity. Qed.
Lemma abs_nth : forall A B (f : A -> B) l k y, nth_error (map f l) k = Some y -> exists c, nth_error l k = Some c /\ y = f c.
Proof. intros A B f l k y E. rewrite nth_error_map in E. destruct (nth_error l k) as [c|]; [|discriminate E]. exists c. cbn in E. split; [reflexivity|congruence]. Qed.

(** The messages on the wires. *)
Lemma mr_ok : forall st mg mr, xinv st mg mr -> forall x, In x mr -> msg_ok x /\ readable_msg x.
Proof.
  intros st mg mr I x Hx. destruct x as [q|r].
  - assert (Hq : In q (reqs mr)) by (apply in_flat_map; exists (Req q); split; [exact Hx|left; reflexivity]).
    destruct (d_req _ _ _ _ _ _ _ _ _ _ _ _ (x_gdir _ _ _ I) _ Hq) as (k & y & E & ->). destruct (d_sid _ _ _ _ _ _ _ _ _ _ _ _ (x_gdir _ _ _ I) _ _ E) as [S1 [S2 S3]].
    split; [split; [rewrite S1; apply sid_range|exact S2]|exact S3].
  - assert (Hq : In r (reps mr)) by (apply in_flat_map; exists (Rep r); split; [exact Hx|left; reflexivity]).
    destruct (d_rep _ _ _ _ _ _ _ _ _ _ _ _ (x_rdir _ _ _ I) _ Hq) as (k & y & E & E1 & _ & E3). destruct (d_sid _ _ _ _ _ _ _ _ _ _ _ _ (x_rdir _ _ _ I) _ _ E) as [S1 _]. destruct r as [sid o]. cbn [fst snd msg_ok readable_msg] in *.
    split; [|exact E3]. split; [|apply E3]. rewrite E1, S1. assert (L := nth_len' _ _ _ _ E). rewrite map_length in L. assert (Q := x_rlen _ _ _ I). unfold len, idr in *. change (2^30) with 1073741824 in Q. change (2^31) with 2147483648. lia.
Qed.
Lemma mg_ok : forall st mg mr, xinv st mg mr -> forall x, In x mg -> msg_ok x.
Proof.
  intros st mg mr I x Hx. destruct x as [q|r].
  - assert (Hq : In q (reqs mg)) by (apply in_flat_map; exists (Req q); split; [exact Hx|left; reflexivity]).
    destruct (d_req _ _ _ _ _ _ _ _ _ _ _ _ (x_rdir _ _ _ I) _ Hq) as (k & y & E & ->). destruct (d_sid _ _ _ _ _ _ _ _ _ _ _ _ (x_rdir _ _ _ I) _ _ E) as [S1 S2].
    split; [|exact S2]. rewrite S1. assert (L := nth_len' _ _ _ _ E). rewrite map_length in L. assert (Q := x_rlen _ _ _ I). unfold len, idr in *. change (2^30) with 1073741824 in Q. change (2^31) with 2147483648. lia.
  - assert (Hq : In r (reps mg)) by (apply in_flat_map; exists (Rep r); split; [exact Hx|left; reflexivity]).
    destruct (d_rep _ _ _ _ _ _ _ _ _ _ _ _ (x_gdir _ _ _ I) _ Hq) as (k & y & E & E1 & _ & E3). destruct (d_sid _ _ _ _ _ _ _ _ _ _ _ _ (x_gdir _ _ _ I) _ _ E) as [S1 _]. destruct r as [sid o]. cbn [fst snd msg_ok] in *.
    split; [rewrite E1, S1; apply sid_range|exact E3].
Qed.
Definition xw (st : mix) (mg mr : list msg) : nat :=
  line_work mg + line_work mr + 3 * length (p_tasks (x_go st)) + 2 * length (rs_tasks (x_rust st)) + 2 * pending (p_runs (x_go st)) + 2 * pending (rs_runs (x_rust st)).
Lemma xw_work : forall st mg mr, xinv st mg mr -> x_work st = xw st mg mr.
Proof.
  intros st mg mr I. unfold x_work, xw. f_equal. f_equal. f_equal. f_equal. rewrite (x_tog _ _ _ I), (x_tor _ _ _ I). unfold line_work. rewrite !map_map.
  f_equal; f_equal; apply map_ext_in; intros x Hx; [apply rust_weight; exact (mg_ok _ _ _ I x Hx)|apply msg_weight; apply (mr_ok _ _ _ I x Hx)].
Qed.

(** ** Moves of the callers *)
Lemma x_gcall : forall st mg mr d md, xinv st mg mr -> okg d md -> len (p_calls (x_go st)) < 2^30 ->
  exists st', x_move go_tbl rust_tbl st (GCall d md) = Some st' /\ xinv st' mg mr.
Proof.
  intros st mg mr d md I Sd L. cbn [x_move]. rewrite Next_closed by (rewrite (x_gcount _ _ _ I); change (2^63) with 9223372036854775808; change (2^30) with 1073741824 in L; lia).
  eexists. split; [reflexivity|]. rewrite (x_gcount _ _ _ I). replace (len (p_calls (x_go st)) + 1) with (N.of_nat (S (length (p_calls (x_go st))))) by (unfold len; lia).
  destruct I as [I1 I2 I3 I4 I5 I6 I7 I8 I9 I10 I11 I12]. constructor; cbn [x_go x_rust to_go to_rust p_calls p_even p_tasks p_runs p_counter]; try assumption.
  - rewrite map_app. cbn [map]. assert (Q := s_call _ _ _ _ _ idg_inj _ _ refuse_r_ok _ _ _ _ _ I3 d md Sd). rewrite map_length in Q. unfold len in Q, L. rewrite map_length in Q. exact (Q L).
  - intros k c E. destruct (nth_snoc' _ _ _ _ _ E) as [[E' _]|[-> ->]]; [exact (I5 _ _ E')|left; split; reflexivity].
  - destruct I6 as (ops & R1 & R2 & R3). exists ops. split; [exact R1|]. split.
    + intros id Hid. destruct (R2 id Hid) as (k & c & E & E'). exists k, c. split; [exact (nth_old' _ _ _ _ _ E)|exact E'].
    + intros k c E. destruct (nth_snoc' _ _ _ _ _ E) as [[E' _]|[-> ->]]; [exact (R3 k c E')|]. discriminate.
  - unfold len. rewrite app_length. cbn [length]. lia.
Qed.

Lemma g_unique : forall st mg mr, xinv st mg mr -> forall i j c d, nth_error (p_calls (x_go st)) i = Some c -> nth_error (p_calls (x_go st)) j = Some d -> c_sid c = c_sid d -> i = j.
Proof. intros st mg mr I i j c d Ei Ej Q. exact (proj1 (a_unique _ _ _ _ _ idg_inj _ _ _ _ _ _ _ (x_gdir _ _ _ I) _ _ _ _ (nth_abs _ _ abs_go _ _ _ Ei) (nth_abs _ _ abs_go _ _ _ Ej) Q)). Qed.
Lemma lrun_snoc : forall (ops : list (lop nat)) o (reg0 reg reg' : lookup nat), lrun reg0 ops = Some reg ->
  match o with OAdd id k => Add reg id k | ORemove id => Remove reg id end = Some reg' -> lrun reg0 (ops ++ [o]) = Some reg'.
Proof.
  intros ops o. induction ops as [|x ops IH]; intros l reg reg' R1 A; cbn [app lrun] in *.
  - injection R1 as ->. destruct o as [i s|i]; rewrite A; reflexivity.
  - destruct x as [i s|i]; [destruct (Add l i s); [|discriminate R1]|destruct (Remove l i); [|discriminate R1]]; exact (IH _ _ _ R1 A).
Qed.
Lemma lrun_ok : forall (ops : list (lop nat)) o (reg : lookup nat), lrun empty_lookup ops = Some reg -> exists reg', match o with OAdd id k => Add reg id k | ORemove id => Remove reg id end = Some reg'.
Proof.
  intros ops o reg R1. destruct (refinement (ops ++ [o])) as (r & Er & _). exists r. revert R1 Er. generalize (@empty_lookup nat). induction ops as [|x ops IH]; intros l R1 Er; cbn [app lrun] in *.
  - injection R1 as ->. destruct o as [i s|i]; [destruct (Add reg i s)|destruct (Remove reg i)]; (exact Er || discriminate Er).
  - destruct x as [i s|i]; [destruct (Add l i s); [|discriminate R1]|destruct (Remove l i); [|discriminate R1]]; exact (IH _ R1 Er).
Qed.

Lemma upd_updl : forall k f l, upd k f l = updl k f l.
Proof. reflexivity. Qed.

Lemma x_gsubscribe : forall st mg mr k c, xinv st mg mr -> nth_error (p_calls (x_go st)) k = Some c -> c_subscribed c = false ->
  exists st' mr', x_move go_tbl rust_tbl st (GSubscribe k) = Some st' /\ xinv st' mg mr'.
Proof.
  intros st mg mr k c I E Sb. cbn [x_move]. rewrite E. assert (Ea := nth_abs _ _ abs_go _ _ _ E). destruct (d_sid _ _ _ _ _ _ _ _ _ _ _ _ (x_gdir _ _ _ I) _ _ Ea) as [S1 [S2 S3]]. cbn [abs_go a_sid a_data a_md] in S1, S2, S3.
  assert (P : N.odd (c_sid c) = false) by (rewrite S1; apply (odd_sid Server)).
  rewrite (register_eq Server _ P). cbn [reg_of]. destruct (x_greg _ _ _ I) as (ops & R1 & R2 & R3). destruct (lrun_ok ops (OAdd (c_sid c) k) _ R1) as (l & Al). rewrite Al.
  set (f := fun c : call => mkCall (c_sid c) (c_data c) (c_md c) true (MonoModel.pstep (c_proc c) PSubscribe)). set (p := set_call (set_reg Server (x_go st) l) k f).
  assert (M : msg_ok (Req (c_sid c, c_data c, c_md c))) by (split; [rewrite S1; apply sid_range|exact S2]).
  exists (mkMix p (x_rust st) (to_go st) (map on_line (mr ++ [Req (c_sid c, c_data c, c_md c)]))), (mr ++ [Req (c_sid c, c_data c, c_md c)]).
  split. { unfold go_send. change (request_of c) with (msg_frame (Req (c_sid c, c_data c, c_md c))). rewrite (msg_bytes _ M), (x_tor _ _ _ I), map_app. reflexivity. }
  destruct (set_call_parts Server (set_reg Server (x_go st) l) k f) as (A1 & A2 & A3 & A4 & A5). destruct (set_reg_parts Server (x_go st) l) as (B1 & B2 & B3 & B4 & B5). fold p in A1, A2, A3, A4, A5. cbn [reg_of] in A1, B1.
  assert (Pc : c_proc c = new_processor) by (destruct (x_gshape _ _ _ I _ _ E) as [[_ X]|[[X _]|(o & X & _)]]; congruence).
  assert (Fc : abs_go (f c) = to_state Waiting (abs_go c)) by (unfold abs_go, to_state, f, results; cbn [c_sid c_data c_md c_subscribed c_proc a_sid a_data a_md]; rewrite Pc; reflexivity).
  assert (Nu := g_unique _ _ _ I).
  destruct I as [I1 I2 I3 I4 I5 I6 I7 I8 I9 I10 I11 I12]. constructor; cbn [x_go x_rust to_go to_rust]; rewrite ?A1, ?A2, ?A3, ?A4, ?A5, ?B1, ?B2, ?B3, ?B4, ?B5; try assumption.
  - reflexivity.
  - rewrite upd_updl, (updl_map _ _ abs_go k f (to_state Waiting)), reqs_app by (intros x Ex; assert (Q : x = c) by congruence; rewrite Q; exact Fc).
    refine (s_start _ _ _ _ _ idg_inj _ _ _ _ _ _ _ I3 _ _ Ea _). unfold abs_go. cbn [a_st]. rewrite Sb. reflexivity.
  - rewrite reps_app. cbn [reps flat_map]. rewrite app_nil_r. exact I4.
  - intros j d Ej. destruct (nth_upd _ _ _ f E _ _ Ej) as [[-> ->]|[_ Ej']]; [|exact (I5 _ _ Ej')]. right; left. split; [reflexivity|]. unfold f. cbn [c_proc]. rewrite Pc. reflexivity.
  - exists (ops ++ [OAdd (c_sid c) k]). split; [exact (lrun_snoc ops (OAdd (c_sid c) k) _ _ _ R1 Al)|]. split.
    + intros id Hid. rewrite chain_after_snoc in Hid. cbn [chain_op] in Hid. unfold chain_add, ids in Hid. rewrite map_app in Hid. apply in_app_or in Hid. destruct Hid as [Hid|[<-|[]]].
      * destruct (R2 id Hid) as (j & d & Ej & D1 & D2). assert (Nj : j <> k) by (intros ->; congruence). exists j, d. rewrite upd_nth. destruct (Nat.eqb_spec j k); [contradiction|]. auto.
      * exists k, (f c). rewrite upd_nth, Nat.eqb_refl, E. repeat split.
    + intros j d Ej Sd. rewrite chain_after_snoc. cbn [chain_op]. unfold chain_add. rewrite get_snoc. destruct (nth_upd _ _ _ f E _ _ Ej) as [[-> ->]|[Nj Ej']].
      * cbn [f c_sid]. rewrite get_not_in, N.eqb_refl; [reflexivity|]. intro Hid. destruct (R2 _ Hid) as (j & d & Ej2 & D1 & D2). assert (j = k) by exact (Nu _ _ _ _ Ej2 E D1). subst j. congruence.
      * rewrite (R3 _ _ Ej' Sd). reflexivity.
  - unfold len. rewrite upd_len. exact I7.
Qed.

(** ** The host goes on *)
Lemma host_request : forall (p : peer Hg) y, sendable (a_data y) (a_md y) -> a_sid y < 2^31 ->
  exists t, received host_site (host_tbl go_tbl) Server p (on_line (Req (a_sid y, a_data y, a_md y))) = Ret [t] /\ gtask_ok t /\ gtask t = task_of pick_g refuse_g keep y
  /\ perform_all p [t] = Some (mkPeer (p_counter p) (p_odd p) (p_even p) (p_calls p) (p_tasks p ++ [t]) (p_runs p)).
Proof.
  intros p y Sd Sr. destruct (received_request host_site (host_tbl go_tbl) (fun _ => Few) Server p (mkCall (a_sid y) (a_data y) (a_md y) false new_processor) Sd Sr) as (t & E & T). cbn [c_sid c_data c_md] in E. exists t. split; [exact E|].
  unfold task_of. destruct T as [[Nb ->]|(h & pa & Nm & ->)].
  - cbn [c_md c_sid other] in *. apply pick_g_none in Nb. cbn [c_md] in Nb. rewrite Nb. split; [left; do 2 eexists; reflexivity|]. split; reflexivity.
  - cbn [c_md c_sid c_data other] in *. apply pick_g_some in Nm. rewrite Nm. split; [right; do 6 eexists; reflexivity|]. split; reflexivity.
Qed.
Lemma host_answer : forall (p : peer Hg) sid o k, msg_ok (Rep (sid, o)) -> get_stream p sid = Some k ->
  received host_site (host_tbl go_tbl) Server p (rust_line (Rep (sid, o))) = Ret ((match o with inl (d, m) => [ACall k (OnNext d m); ACall k OnComplete] | inr e => [ACall k (OnError e); ACall k OnComplete] end) ++ [ARemove sid]).
Proof.
  intros p sid o k M G. destruct o as [v|e].
  - rewrite rust_pay_line. exact (received_answer host_site (host_tbl go_tbl) Server p sid (inl v) k M G).
  - unfold received, host_site. rewrite (recv_stream (host_tbl go_tbl Server) (get_stream p) (fun _ => SMono) Host _ _ (rust_parse _ M) eq_refl). change (frame_sid _) with sid. rewrite G. reflexivity.
Qed.

Lemma g_get : forall st mg mr k c, xinv st mg mr -> nth_error (p_calls (x_go st)) k = Some c -> a_st (abs_go c) = Waiting -> get_stream (x_go st) (c_sid c) = Some k.
Proof.
  intros st mg mr k c I E W. destruct (d_sid _ _ _ _ _ _ _ _ _ _ _ _ (x_gdir _ _ _ I) _ _ (nth_abs _ _ abs_go _ _ _ E)) as [S1 _]. cbn [abs_go a_sid] in S1.
  assert (P : N.odd (c_sid c) = false) by (rewrite S1; apply (odd_sid Server)).
  rewrite (get_eq Server _ P). cbn [reg_of]. destruct (x_greg _ _ _ I) as (ops & R1 & _ & R3). destruct (refinement ops) as (r & Er2 & G). assert (r = p_even (x_go st)) by congruence. subst r. rewrite G, (R3 _ _ E W). reflexivity.
Qed.

Lemma x_greceive : forall st mg mr, xinv st mg mr -> to_go st <> [] ->
  exists st' mg', x_move go_tbl rust_tbl st GReceive = Some st' /\ xinv st' mg' mr /\ (x_work st' < x_work st)%nat.
Proof.
  intros st mg mr I Ne. cbn [x_move]. rewrite (x_tog _ _ _ I) in *. destruct mg as [|x rest]; [exfalso; apply Ne; reflexivity|]. clear Ne. cbn [map].
  assert (M : msg_ok x) by (apply (mg_ok _ _ _ I); left; reflexivity).
  destruct x as [q|[sid o]].
  - destruct (d_req _ _ _ _ _ _ _ _ _ _ _ _ (x_rdir _ _ _ I) q (or_introl eq_refl)) as (k & y & E & ->). destruct M as [M1 M2].
    rewrite rust_req_line. destruct (host_request (x_go st) y M2 M1) as (t & -> & To & Tt & ->).
    assert (Q : forall st', xinv st' rest mr -> x_work st' = xw st' rest mr) by (intros; apply xw_work; assumption).
    exists (mkMix (mkPeer (p_counter (x_go st)) (p_odd (x_go st)) (p_even (x_go st)) (p_calls (x_go st)) (p_tasks (x_go st) ++ [t]) (p_runs (x_go st))) (x_rust st) (map rust_line rest) (to_rust st)), rest.
    split; [reflexivity|]. assert (Wk := xw_work _ _ _ I).
    match goal with |- ?A /\ _ => assert (I' : A) end.
    { destruct I as [I1 I2 I3 I4 I5 I6 I7 I8 I9 I10 I11 I12]. constructor; cbn [x_go x_rust to_go to_rust p_calls p_even p_tasks p_runs p_counter]; try assumption.
      - reflexivity.
      - rewrite map_app. cbn [map]. rewrite Tt. exact (s_receive _ _ _ _ _ idr_inj _ _ _ _ _ _ _ I4 _ _ _ E eq_refl).
      - apply Forall_app. split; [exact I8|constructor; [exact To|constructor]]. }
    split; [exact I'|]. rewrite Wk, (Q _ I'). unfold xw. cbn [x_go x_rust p_tasks p_runs]. rewrite line_cons, app_length. cbn [length]. lia.
  - destruct (s_target _ _ _ _ _ idg_inj _ _ _ _ _ _ _ (x_gdir _ _ _ I) sid o (reps rest) eq_refl) as (k & y & Ey & Sy & Wy & _ & _).
    destruct (abs_nth _ _ abs_go _ _ _ Ey) as (c & E & ->). cbn [abs_go a_sid] in Sy. subst sid.
    rewrite (host_answer (x_go st) (c_sid c) o k M) by exact (g_get _ _ _ _ _ I E Wy).
    destruct (x_greg _ _ _ I) as (ops & R1 & R2 & R3). destruct (lrun_ok ops (ORemove (c_sid c)) _ R1) as (l & Rl). cbn in Rl.
    destruct (d_sid _ _ _ _ _ _ _ _ _ _ _ _ (x_gdir _ _ _ I) _ _ Ey) as [S1 _]. cbn [abs_go a_sid] in S1.
    assert (P : N.odd (c_sid c) = false) by (rewrite S1; apply (odd_sid Server)).
    set (p := set_reg Server (set_call (x_go st) k (settle_call o)) l).
    assert (Pf : perform_all (x_go st) ((match o with inl (d, m0) => [ACall k (OnNext d m0); ACall k OnComplete] | inr e => [ACall k (OnError e); ACall k OnComplete] end) ++ [ARemove (c_sid c)]) = Some p).
    { destruct (set_call_parts Server (x_go st) k (settle_call o)) as (A1 & _). cbn [reg_of] in A1. assert (Q : remove (set_call (x_go st) k (settle_call o)) (c_sid c) = Some p) by (rewrite (remove_eq Server _ P); cbn [reg_of]; rewrite A1, Rl; reflexivity).
      transitivity (match remove (set_call (x_go st) k (settle_call o)) (c_sid c) with Some p' => Some p' | None => None end); [destruct o as [[d m0]|e]; reflexivity|rewrite Q; reflexivity]. }
    rewrite Pf. exists (mkMix p (x_rust st) (map rust_line rest) (to_rust st)), rest. split; [reflexivity|]. assert (Wk := xw_work _ _ _ I).
    destruct (set_call_parts Server (x_go st) k (settle_call o)) as (A1 & A2 & A3 & A4 & A5). destruct (set_reg_parts Server (set_call (x_go st) k (settle_call o)) l) as (B1 & B2 & B3 & B4 & B5). fold p in B1, B2, B3, B4, B5. cbn [reg_of] in A1, B1.
    assert (Sb : c_subscribed c = true) by (unfold abs_go in Wy; cbn [a_st] in Wy; destruct (c_subscribed c); [reflexivity|discriminate Wy]).
    assert (Pc : c_proc c = mkProc None None [(false, [])]).
    { destruct (x_gshape _ _ _ I _ _ E) as [[X _]|[[_ X]|(z & _ & X)]]; [congruence|exact X|]. unfold abs_go, results in Wy. cbn [a_st] in Wy. rewrite Sb, X in Wy. discriminate Wy. }
    assert (Pf' : c_proc (settle_call o c) = mkProc None None [(true, [o])]) by (unfold settle_call, on_proc; cbn [c_proc]; rewrite Pc; destruct o; reflexivity).
    assert (Fc : abs_go (settle_call o c) = to_state (Done (keep o)) (abs_go c)).
    { unfold abs_go, results. rewrite Pf'. cbn [settle_call on_proc c_sid c_data c_md c_subscribed to_state a_sid a_data a_md]. rewrite Sb. reflexivity. }
    assert (Nu := g_unique _ _ _ I).
    match goal with |- ?A /\ _ => assert (I' : A) end.
    { destruct I as [I1 I2 I3 I4 I5 I6 I7 I8 I9 I10 I11 I12]. constructor; cbn [x_go x_rust to_go to_rust]; rewrite ?B1, ?B2, ?B3, ?B4, ?B5, ?A1, ?A2, ?A3, ?A4, ?A5; try assumption.
      - reflexivity.
      - rewrite upd_updl, (updl_map _ _ abs_go k (settle_call o) (to_state (Done (keep o)))) by (intros x Ex; assert (Q : x = c) by congruence; rewrite Q; exact Fc).
        exact (s_reply _ _ _ _ _ idg_inj _ _ _ _ _ _ _ I3 _ _ _ _ Ey eq_refl).
      - intros j d Ej. destruct (nth_upd _ _ _ (settle_call o) E _ _ Ej) as [[-> ->]|[_ Ej']]; [|exact (I5 _ _ Ej')]. right; right. exists o. split; [exact Sb|exact Pf'].
      - exists (ops ++ [ORemove (c_sid c)]). split; [exact (lrun_snoc ops (ORemove (c_sid c)) _ _ _ R1 Rl)|]. split.
        + intros id Hid. rewrite chain_after_snoc in Hid. cbn [chain_op] in Hid. apply remove_ids in Hid. destruct (R2 id Hid) as (j & d & Ej & D1 & D2). exists j. destruct (Nat.eq_dec j k) as [->|Nj].
          * exists (settle_call o c). rewrite upd_nth, Nat.eqb_refl, E. assert (d = c) by congruence. subst d. repeat split; assumption.
          * exists d. rewrite upd_nth. destruct (Nat.eqb_spec j k); [contradiction|]. auto.
        + intros j d Ej Wd. rewrite chain_after_snoc. cbn [chain_op]. destruct (nth_upd _ _ _ (settle_call o) E _ _ Ej) as [[-> ->]|[Nj Ej']]; [rewrite Fc in Wd; discriminate Wd|].
          rewrite remove_get; [exact (R3 _ _ Ej' Wd)|]. intro Q. apply Nj. symmetry. exact (Nu _ _ _ _ E Ej' Q).
      - unfold len. rewrite upd_len. exact I7. }
    split; [exact I'|]. rewrite Wk, (xw_work _ _ _ I'). unfold xw. cbn [x_go x_rust]. rewrite B3, B4, A3, A4, line_cons. lia.
Qed.

Lemma x_gtask : forall st mg mr i t, xinv st mg mr -> nth_error (p_tasks (x_go st)) i = Some t ->
  exists st' mr', x_move go_tbl rust_tbl st (GTask i) = Some st' /\ xinv st' mg mr' /\ (x_work st' < x_work st)%nat.
Proof.
  intros st mg mr i t I E. cbn [x_move]. destruct (cut_some _ _ _ E) as (a & b & -> & Et). assert (Wk := xw_work _ _ _ I).
  assert (To : gtask_ok t) by (assert (F := x_gtasks _ _ _ I); rewrite Forall_forall in F; exact (F t (nth_error_In _ _ E))).
  assert (Tm : map gtask (p_tasks (x_go st)) = map gtask a ++ gtask t :: map gtask b) by (rewrite Et, map_app; reflexivity).
  assert (Fo : Forall gtask_ok (a ++ b)) by (assert (F := x_gtasks _ _ _ I); rewrite Et in F; apply Forall_app in F; destruct F as [F1 F2]; apply Forall_app; split; [exact F1|inversion F2; assumption]).
  destruct To as [(sid & m & ->)|(h & sid & d & m & p & n & ->)].
  - assert (Hin : In (gtask (ASend (FramesModel.FError sid 0 m))) (map gtask (p_tasks (x_go st)))) by (apply in_map; exact (nth_error_In _ _ E)).
    assert (Q := s_send _ _ _ _ _ idr_inj _ _ refuse_g_ok _ _ _ _ _ (x_rdir _ _ _ I) (map gtask a) (map gtask b) sid m Tm).
    assert (M : msg_ok (Rep (sid, inr m))).
    { destruct (d_rep _ _ _ _ _ _ _ _ _ _ _ _ Q (sid, inr m)) as (k & y & Ey & E1 & _ & E3); [apply in_or_app; right; left; reflexivity|].
      destruct (d_sid _ _ _ _ _ _ _ _ _ _ _ _ (x_rdir _ _ _ I) _ _ Ey) as [S1 _]. cbn [fst snd] in *. split; [|apply E3]. rewrite E1, S1. assert (L := nth_len' _ _ _ _ Ey). rewrite map_length in L. assert (Z := x_rlen _ _ _ I). unfold len, idr in *. change (2^30) with 1073741824 in Z. change (2^31) with 2147483648. lia. }
    exists (mkMix (mkPeer (p_counter (x_go st)) (p_odd (x_go st)) (p_even (x_go st)) (p_calls (x_go st)) (a ++ b) (p_runs (x_go st))) (x_rust st) (to_go st) (map on_line (mr ++ [Rep (sid, inr m)]))), (mr ++ [Rep (sid, inr m)]).
    split. { unfold go_send. change (FramesModel.FError sid 0 m) with (msg_frame (Rep (sid, inr m))). rewrite (msg_bytes _ M), (x_tor _ _ _ I), map_app. reflexivity. }
    match goal with |- ?A /\ _ => assert (I' : A) end.
    { destruct I as [I1 I2 I3 I4 I5 I6 I7 I8 I9 I10 I11 I12]. constructor; cbn [x_go x_rust to_go to_rust p_calls p_even p_tasks p_runs p_counter]; try assumption.
      - reflexivity.
      - rewrite reqs_app. cbn [reqs flat_map]. rewrite app_nil_r. exact I3.
      - rewrite reps_app, map_app. exact Q. }
    split; [exact I'|]. rewrite Wk, (xw_work _ _ _ I'). unfold xw. cbn [x_go x_rust p_tasks p_runs]. rewrite Et, line_app, line_cons, !app_length. cbn [length]. change (line_work []) with 0%nat. lia.
  - exists (mkMix (mkPeer (p_counter (x_go st)) (p_odd (x_go st)) (p_even (x_go st)) (p_calls (x_go st)) (a ++ b) (p_runs (x_go st) ++ [mkRun h sid d m None])) (x_rust st) (to_go st) (to_rust st)), mr.
    split; [reflexivity|].
    match goal with |- ?A /\ _ => assert (I' : A) end.
    { destruct I as [I1 I2 I3 I4 I5 I6 I7 I8 I9 I10 I11 I12]. constructor; cbn [x_go x_rust to_go to_rust p_calls p_even p_tasks p_runs p_counter]; try assumption.
      rewrite map_app. exact (s_run _ _ _ _ _ idr_inj _ _ _ _ _ _ _ I4 _ _ _ _ _ _ Tm). }
    split; [exact I'|]. rewrite Wk, (xw_work _ _ _ I'). unfold xw. cbn [x_go x_rust p_tasks p_runs]. rewrite Et, pending_app, !app_length. cbn [length]. change (pending [mkRun h sid d m None]) with 1%nat. lia.
Qed.

Lemma r_sid_range : forall st mg mr k y, xinv st mg mr -> nth_error (map abs_rust (rs_calls (x_rust st))) k = Some y -> a_sid y < 2^31.
Proof.
  intros st mg mr k y I Ey. destruct (d_sid _ _ _ _ _ _ _ _ _ _ _ _ (x_rdir _ _ _ I) _ _ Ey) as [S1 _]. rewrite S1. assert (L := nth_len' _ _ _ _ Ey). rewrite map_length in L. assert (Z := x_rlen _ _ _ I). unfold len, idr in *. change (2^30) with 1073741824 in Z. change (2^31) with 2147483648. lia.
Qed.
Lemma pending_cons : forall H (r : run H) l, pending (r :: l) = (pending [r] + pending l)%nat.
Proof. intros. unfold pending. cbn [filter]. destruct (r_out r); reflexivity. Qed.

Lemma x_gconclude : forall st mg mr i r o, xinv st mg mr -> nth_error (p_runs (x_go st)) i = Some r -> r_out r = None -> readable_out o ->
  exists st' mr', x_move go_tbl rust_tbl st (GConclude i o) = Some st' /\ xinv st' mg mr' /\ (x_work st' < x_work st)%nat.
Proof.
  intros st mg mr i r o I E Ro So. cbn [x_move]. destruct (cut_some _ _ _ E) as (a & b & -> & Er). assert (Wk := xw_work _ _ _ I).
  destruct r as [h sid d md out]. cbn [r_out] in Ro. subst out.
  destruct (d_run _ _ _ _ _ _ _ _ _ _ _ _ (x_rdir _ _ _ I) _ (nth_error_In _ _ E)) as (k & y & Ey & Rf). assert (Rs : sid = a_sid y) by apply Rf.
  assert (M : msg_ok (Rep (sid, o))) by (split; [rewrite Rs; exact (r_sid_range _ _ _ _ _ I Ey)|apply So]).
  exists (mkMix (mkPeer (p_counter (x_go st)) (p_odd (x_go st)) (p_even (x_go st)) (p_calls (x_go st)) (p_tasks (x_go st)) (a ++ mkRun h sid d md (Some o) :: b)) (x_rust st) (to_go st) (map on_line (mr ++ [Rep (sid, o)]))), (mr ++ [Rep (sid, o)]).
  split. { unfold go_send. change (answer_of sid o) with (msg_frame (Rep (sid, o))). rewrite (msg_bytes _ M), (x_tor _ _ _ I), map_app. reflexivity. }
  match goal with |- ?A /\ _ => assert (I' : A) end.
  { destruct I as [I1 I2 I3 I4 I5 I6 I7 I8 I9 I10 I11 I12]. constructor; cbn [x_go x_rust to_go to_rust p_calls p_even p_tasks p_runs p_counter]; try assumption.
    - reflexivity.
    - rewrite reqs_app. cbn [reqs flat_map]. rewrite app_nil_r. exact I3.
    - rewrite reps_app. exact (s_conclude _ _ _ _ _ idr_inj _ _ refuse_g_ok _ _ _ _ _ I4 _ _ _ _ _ _ _ Er So). }
  split; [exact I'|]. rewrite Wk, (xw_work _ _ _ I'). unfold xw. cbn [x_go x_rust p_tasks p_runs]. rewrite Er, line_app, line_cons, !pending_app. change (line_work []) with 0%nat.
  rewrite (pending_cons _ (mkRun h sid d md None)), (pending_cons _ (mkRun h sid d md (Some o))). change (pending [mkRun h sid d md None]) with 1%nat. change (pending [mkRun h sid d md (Some o)]) with 0%nat. lia.
Qed.

(** ** The guest goes on *)
Lemma find_handler_eq : forall md, wf md -> 4 <= len md -> find_handler rust_tbl md = Ret (match pick_r md with Some h => inl h | None => inr no_handler end).
Proof. intros md W L. unfold find_handler, parse_metadata, pick_r. destruct (N.leb_spec 4 (len md)); [|lia]. cbn [bind]. rewrite number4_unbe by assumption. reflexivity. Qed.

Lemma get_insert : forall sid k l, map_get sid (map_insert sid k l) = Some k.
Proof. intros. unfold map_get, map_insert. cbn [List.find fst]. rewrite N.eqb_refl. reflexivity. Qed.
Lemma get_remove_other : forall sid sid' l, sid' <> sid -> map_get sid' (map_remove sid l) = map_get sid' l.
Proof.
  intros sid sid' l Nq. unfold map_get, map_remove. induction l as [|[i k] l IH]; [reflexivity|]. cbn [filter fst List.find]. destruct (N.eqb_spec i sid) as [->|N0]; cbn [negb].
  - destruct (N.eqb_spec sid sid'); [congruence|]. exact IH.
  - cbn [List.find fst]. destruct (i =? sid'); [reflexivity|exact IH].
Qed.
Lemma get_insert_other : forall sid sid' k l, sid' <> sid -> map_get sid' (map_insert sid k l) = map_get sid' l.
Proof.
  intros sid sid' k l Nq. transitivity (map_get sid' (map_remove sid l)); [|apply get_remove_other; exact Nq]. unfold map_get, map_insert. cbn [List.find fst]. destruct (N.eqb_spec sid sid'); [congruence|reflexivity].
Qed.
Lemma r_unique : forall st mg mr, xinv st mg mr -> forall i j c d, nth_error (rs_calls (x_rust st)) i = Some c -> nth_error (rs_calls (x_rust st)) j = Some d -> rc_sid c = rc_sid d -> i = j.
Proof. intros st mg mr I i j c d Ei Ej Q. exact (proj1 (a_unique _ _ _ _ _ idr_inj _ _ _ _ _ _ _ (x_rdir _ _ _ I) _ _ _ _ (nth_abs _ _ abs_rust _ _ _ Ei) (nth_abs _ _ abs_rust _ _ _ Ej) Q)). Qed.
Lemma updl_snoc : forall A (f : A -> A) l x, updl (length l) f (l ++ [x]) = l ++ [f x].
Proof. intros A f l x. unfold updl. rewrite nth_error_app2, Nat.sub_diag by lia. cbn [nth_error]. rewrite firstn_app, firstn_all, Nat.sub_diag, firstn_O, app_nil_r, skipn_all2 by (rewrite app_length; cbn; lia). reflexivity. Qed.

Lemma x_rcall : forall st mg mr d md, xinv st mg mr -> sendable d md -> len (rs_calls (x_rust st)) < 2^30 - 1 ->
  exists st' mg', x_move go_tbl rust_tbl st (RCall d md) = Some st' /\ xinv st' mg' mr.
Proof.
  intros st mg mr d md I Sd L. change (2^30 - 1) with 1073741823 in L. cbn [x_move]. unfold rust_call. set (sid := rs_next (x_rust st)).
  assert (Es : sid = idr (length (rs_calls (x_rust st)))) by (unfold sid, idr; rewrite (x_rnext _ _ _ I); unfold len; lia).
  assert (M : msg_ok (Req (sid, d, md))) by (split; [rewrite Es; unfold idr, len in *; change (2^31) with 2147483648; lia|exact Sd]).
  assert (Ln : len (map abs_rust (rs_calls (x_rust st))) < 2^30) by (unfold len in *; rewrite map_length; change (2^30) with 1073741824; lia).
  assert (Nx : u32 (sid + 2) = sid + 2) by (unfold u32; apply N.mod_small; rewrite Es; unfold idr, len in *; change (2^32) with 4294967296; lia). rewrite Nx.
  exists (mkMix (x_go st) (mkRPeer (sid + 2) (map_insert sid (length (rs_calls (x_rust st))) (rs_handlers (x_rust st))) (rs_calls (x_rust st) ++ [mkRCall sid d md false RPending]) (rs_tasks (x_rust st)) (rs_runs (x_rust st))) (map rust_line (mg ++ [Req (sid, d, md)])) (to_rust st)), (mg ++ [Req (sid, d, md)]).
  split. { unfold rust_send, encode_all. change (new_request_response sid (Some md) (Some d) 0) with (rust_frame (Req (sid, d, md))). rewrite (rust_bytes _ M), (x_tog _ _ _ I), map_app. reflexivity. }
  assert (Fr : forall k c, nth_error (rs_calls (x_rust st)) k = Some c -> rc_sid c <> sid).
  { intros k c E. rewrite Es. assert (F := fresh_id _ _ _ _ _ idr_inj _ _ _ _ _ _ _ (x_rdir _ _ _ I) k _ Ln (nth_abs _ _ abs_rust _ _ _ E)). rewrite map_length in F. exact F. }
  assert (Rn := x_rnext _ _ _ I).
  destruct I as [I1 I2 I3 I4 I5 I6 I7 I8 I9 I10 I11 I12]. constructor; cbn [x_go x_rust to_go to_rust rs_next rs_handlers rs_calls rs_tasks rs_runs]; try assumption.
  - reflexivity.
  - rewrite reps_app. cbn [reps flat_map]. rewrite app_nil_r. exact I3.
  - rewrite map_app, reqs_app. cbn [map].
    assert (Q := s_call _ _ _ _ _ idr_inj _ _ refuse_g_ok _ _ _ _ _ I4 d md Sd Ln). rewrite map_length, <- Es in Q.
    assert (En : nth_error (map abs_rust (rs_calls (x_rust st)) ++ [mkA sid d md Idle]) (length (map abs_rust (rs_calls (x_rust st)))) = Some (mkA sid d md Idle)) by (rewrite nth_error_app2, Nat.sub_diag by lia; reflexivity).
    assert (Q2 := s_start _ _ _ _ _ idr_inj _ _ _ _ _ _ _ Q _ _ En eq_refl). rewrite updl_snoc in Q2. exact Q2.
  - unfold len in *. rewrite app_length. cbn [length]. change (2^30) with 1073741824. lia.
  - unfold len. rewrite app_length. cbn [length]. fold sid in Rn. rewrite Rn. unfold len. lia.
  - intros k c E. destruct (nth_snoc' _ _ _ _ _ E) as [[E' _]|[-> ->]]; [exact (I11 _ _ E')|]. split; [reflexivity|left; reflexivity].
  - intros k c E Pn. destruct (nth_snoc' _ _ _ _ _ E) as [[E' _]|[-> ->]]; [|apply get_insert]. rewrite get_insert_other by exact (Fr _ _ E'). exact (I12 _ _ E' Pn).
Qed.

Lemma set_rcall_parts : forall (p : rpeer Hr) k f, rs_next (set_rcall p k f) = rs_next p /\ rs_handlers (set_rcall p k f) = rs_handlers p /\ rs_calls (set_rcall p k f) = updl k f (rs_calls p) /\ rs_tasks (set_rcall p k f) = rs_tasks p /\ rs_runs (set_rcall p k f) = rs_runs p.
Proof. intros p k f. unfold set_rcall, updl. destruct (nth_error (rs_calls p) k); repeat split. Qed.

(** An answer of the host reaches the call that waits for it. *)
Lemma guest_answer : forall st mg mr sid o rest, xinv st mg mr -> mr = Rep (sid, o) :: rest -> exists k c x,
  nth_error (rs_calls (x_rust st)) k = Some c /\ sid = rc_sid c /\ rc_res c = RPending /\ x = told o
  /\ receive rust_tbl (x_rust st) (on_line (Rep (sid, o))) = Some (set_rcall (drop_handler (x_rust st) sid) k (holds (RGot x)), []).
Proof.
  intros st mg mr sid o rest I Em.
  destruct (mr_ok _ _ _ I (Rep (sid, o))) as [M R]; [rewrite Em; left; reflexivity|]. assert (Er : reps mr = (sid, o) :: reps rest) by (rewrite Em; reflexivity).
  destruct (s_target _ _ _ _ _ idr_inj _ _ _ _ _ _ _ (x_rdir _ _ _ I) sid o (reps rest) Er) as (k & y & Ey & Sy & Wy & _ & _).
  destruct (abs_nth _ _ abs_rust _ _ _ Ey) as (c & E & ->). cbn [abs_rust a_sid] in Sy. subst sid.
  destruct (x_rshape _ _ _ I _ _ E) as [Gn Sh].
  assert (Pn : rc_res c = RPending) by (destruct Sh as [X|[(v & X)|(m & X)]]; [exact X| |]; unfold abs_rust in Wy; cbn [a_st] in Wy; rewrite X in Wy; discriminate Wy).
  assert (Wt : waiting (x_rust st) (rc_sid c) = Some (k, c)) by (unfold waiting; rewrite (x_rreg _ _ _ I _ _ E Pn), E; reflexivity).
  exists k, c, (told o). split; [exact E|]. split; [reflexivity|]. split; [exact Pn|]. split; [reflexivity|]. unfold receive. destruct o as [v|e].
  - destruct (decode_pay _ _ M R) as (p & -> & P1 & P2 & <-). cbn [process_once]. rewrite P1, P2. unfold on_payload. rewrite Wt, Gn. reflexivity.
  - rewrite (decode_err _ _ M R). cbn [process_once]. unfold on_failure. rewrite Wt, Gn. destruct e; reflexivity.
Qed.

Lemma x_rreceive : forall st mg mr, xinv st mg mr -> to_rust st <> [] ->
  exists st' mr', x_move go_tbl rust_tbl st RReceive = Some st' /\ xinv st' mg mr' /\ (x_work st' < x_work st)%nat.
Proof.
  intros st mg mr I Ne. cbn [x_move]. rewrite (x_tor _ _ _ I) in *. destruct mr as [|x rest]; [exfalso; apply Ne; reflexivity|]. clear Ne. cbn [map]. assert (Wk := xw_work _ _ _ I).
  destruct (mr_ok _ _ _ I x) as [M R]; [left; reflexivity|].
  destruct x as [q|[sid o]].
  - destruct (d_req _ _ _ _ _ _ _ _ _ _ _ _ (x_gdir _ _ _ I) q (or_introl eq_refl)) as (k & y & E & ->).
    assert (S1 := s_receive _ _ _ _ _ idg_inj _ _ _ _ _ _ _ (x_gdir _ _ _ I) _ _ _ E eq_refl). unfold task_of in S1.
    unfold receive. destruct (decode_req _ _ _ M R) as (r & -> & R1 & R2 & R3). cbn [process_once]. rewrite R1, R2, R3. unfold on_request_response.
    rewrite find_handler_eq by (apply M || apply R). destruct (pick_r (a_md y)) as [h|] eqn:Pk.
    + eexists (mkMix (x_go st) (mkRPeer _ _ _ _ _) (to_go st ++ []) (map on_line rest)), rest. split; [reflexivity|].
      match goal with |- ?A /\ _ => assert (I' : A) end.
      { destruct I as [I1 I2 I3 I4 I5 I6 I7 I8 I9 I10 I11 I12]. constructor; cbn [x_go x_rust to_go to_rust rs_next rs_handlers rs_calls rs_tasks rs_runs]; rewrite ?app_nil_r; try assumption.
        - reflexivity.
        - assert (Q := s_run _ _ _ _ _ idg_inj _ _ _ _ _ _ _ S1 _ [] _ _ _ _ eq_refl). rewrite app_nil_r in Q. exact Q. }
      split; [exact I'|]. rewrite Wk, (xw_work _ _ _ I'). unfold xw. cbn [x_go x_rust rs_tasks rs_runs]. rewrite line_cons, pending_app. match goal with |- context [pending [mkRun ?a ?b ?c ?d None]] => change (pending [mkRun a b c d None]) with 1%nat end. lia.
    + eexists (mkMix (x_go st) (mkRPeer _ _ _ _ _) (to_go st ++ []) (map on_line rest)), rest. split; [reflexivity|].
      match goal with |- ?A /\ _ => assert (I' : A) end.
      { destruct I as [I1 I2 I3 I4 I5 I6 I7 I8 I9 I10 I11 I12]. constructor; cbn [x_go x_rust to_go to_rust rs_next rs_handlers rs_calls rs_tasks rs_runs]; rewrite ?app_nil_r; try assumption.
        - reflexivity.
        - rewrite map_app. exact S1. }
      split; [exact I'|]. rewrite Wk, (xw_work _ _ _ I'). unfold xw. cbn [x_go x_rust rs_tasks rs_runs]. rewrite line_cons, app_length. cbn [length]. lia.
  - destruct (guest_answer _ _ _ _ _ _ I eq_refl) as (k & c & x & E & -> & Pn & -> & ->). set (q := set_rcall _ _ _).
    exists (mkMix (x_go st) q (to_go st ++ []) (map on_line rest)), rest. split; [reflexivity|].
    destruct (set_rcall_parts (drop_handler (x_rust st) (rc_sid c)) k (holds (RGot (told o)))) as (A1 & A2 & A3 & A4 & A5). fold q in A1, A2, A3, A4, A5. cbn [drop_handler rs_next rs_handlers rs_calls rs_tasks rs_runs] in A1, A2, A3, A4, A5.
    assert (Fc : abs_rust (holds (RGot (told o)) c) = to_state (Done (shown_r o)) (abs_rust c)) by (destruct o as [v|[|b e]]; reflexivity).
    assert (Nu := r_unique _ _ _ I). assert (Ey := nth_abs _ _ abs_rust _ _ _ E).
    match goal with |- ?A /\ _ => assert (I' : A) end.
    { destruct I as [I1 I2 I3 I4 I5 I6 I7 I8 I9 I10 I11 I12]. constructor; cbn [x_go x_rust to_go to_rust]; rewrite ?app_nil_r, ?A1, ?A2, ?A3, ?A4, ?A5; try assumption.
      - reflexivity.
      - rewrite (updl_map _ _ abs_rust k (holds (RGot (told o))) (to_state (Done (shown_r o)))) by (intros x Ex; assert (Q : x = c) by congruence; rewrite Q; exact Fc).
        exact (s_reply _ _ _ _ _ idr_inj _ _ _ _ _ _ _ I4 _ _ _ _ Ey eq_refl).
      - unfold len. rewrite updl_len. exact I9.
      - unfold len. rewrite updl_len. exact I10.
      - intros j d Ej. rewrite updl_nth, E in Ej. destruct (Nat.eqb_spec j k) as [->|Nj]; [|exact (I11 _ _ Ej)]. cbn [option_map] in Ej. assert (Q : d = holds (RGot (told o)) c) by congruence. rewrite Q. destruct (I11 _ _ E) as [Gn _].
        split; [exact Gn|]. right. destruct o as [v|[|b e]]; [left; eexists; reflexivity|right; eexists; reflexivity|right; eexists; reflexivity].
      - intros j d Ej Pd. rewrite updl_nth, E in Ej. destruct (Nat.eqb_spec j k) as [->|Nj]; [cbn [option_map] in Ej; assert (Q : d = holds (RGot (told o)) c) by congruence; rewrite Q in Pd; discriminate Pd|].
        rewrite get_remove_other; [exact (I12 _ _ Ej Pd)|]. intro Q. apply Nj. exact (Nu _ _ _ _ Ej E Q). }
    split; [exact I'|]. rewrite Wk, (xw_work _ _ _ I'). unfold xw. cbn [x_go x_rust]. rewrite A4, A5, line_cons. lia.
Qed.

Lemma g_sid_range : forall st mg mr k y, xinv st mg mr -> nth_error (map abs_go (p_calls (x_go st))) k = Some y -> a_sid y < 2^31.
Proof. intros st mg mr k y I Ey. destruct (d_sid _ _ _ _ _ _ _ _ _ _ _ _ (x_gdir _ _ _ I) _ _ Ey) as [S1 _]. rewrite S1. apply sid_range. Qed.

Lemma x_rtask : forall st mg mr i t, xinv st mg mr -> nth_error (rs_tasks (x_rust st)) i = Some t ->
  exists st' mg', x_move go_tbl rust_tbl st (RTask i) = Some st' /\ xinv st' mg' mr /\ (x_work st' < x_work st)%nat.
Proof.
  intros st mg mr i [sid m] I E. cbn [x_move]. destruct (cut_some _ _ _ E) as (a & b & -> & Et). assert (Wk := xw_work _ _ _ I).
  assert (Tm : map rtask (rs_tasks (x_rust st)) = map rtask a ++ TSend sid m :: map rtask b) by (rewrite Et, map_app; reflexivity).
  assert (Q := s_send _ _ _ _ _ idg_inj _ _ refuse_r_ok _ _ _ _ _ (x_gdir _ _ _ I) (map rtask a) (map rtask b) sid m Tm).
  assert (M : msg_ok (Rep (sid, inr m))).
  { destruct (d_rep _ _ _ _ _ _ _ _ _ _ _ _ Q (sid, inr m)) as (k & y & Ey & E1 & _ & E3); [apply in_or_app; right; left; reflexivity|]. cbn [fst snd] in *. split; [rewrite E1; exact (g_sid_range _ _ _ _ _ I Ey)|exact E3]. }
  exists (mkMix (x_go st) (mkRPeer (rs_next (x_rust st)) (rs_handlers (x_rust st)) (rs_calls (x_rust st)) (a ++ b) (rs_runs (x_rust st))) (map rust_line (mg ++ [Rep (sid, inr m)])) (to_rust st)), (mg ++ [Rep (sid, inr m)]).
  split. { unfold rust_send, encode_all. change (rust_answer sid (inr m)) with (rust_frame (Rep (sid, inr m))). rewrite (rust_bytes _ M), (x_tog _ _ _ I), map_app. reflexivity. }
  match goal with |- ?A /\ _ => assert (I' : A) end.
  { destruct I as [I1 I2 I3 I4 I5 I6 I7 I8 I9 I10 I11 I12]. constructor; cbn [x_go x_rust to_go to_rust rs_next rs_handlers rs_calls rs_tasks rs_runs]; try assumption.
    - reflexivity.
    - rewrite reps_app, map_app. exact Q.
    - rewrite reqs_app. cbn [reqs flat_map]. rewrite app_nil_r. exact I4. }
  split; [exact I'|]. rewrite Wk, (xw_work _ _ _ I'). unfold xw. cbn [x_go x_rust rs_tasks rs_runs]. rewrite Et, line_app, line_cons, !app_length. cbn [length]. change (line_work []) with 0%nat. lia.
Qed.

Lemma x_rconclude : forall st mg mr i r o, xinv st mg mr -> nth_error (rs_runs (x_rust st)) i = Some r -> r_out r = None -> sendable_out o ->
  exists st' mg', x_move go_tbl rust_tbl st (RConclude i o) = Some st' /\ xinv st' mg' mr /\ (x_work st' < x_work st)%nat.
Proof.
  intros st mg mr i r o I E Ro So. cbn [x_move]. destruct (cut_some _ _ _ E) as (a & b & -> & Er). assert (Wk := xw_work _ _ _ I).
  destruct r as [h sid d md out]. cbn [r_out] in Ro. subst out.
  destruct (d_run _ _ _ _ _ _ _ _ _ _ _ _ (x_gdir _ _ _ I) _ (nth_error_In _ _ E)) as (k & y & Ey & Rf). assert (Rs : sid = a_sid y) by apply Rf.
  assert (M : msg_ok (Rep (sid, o))) by (split; [rewrite Rs; exact (g_sid_range _ _ _ _ _ I Ey)|exact So]).
  exists (mkMix (x_go st) (mkRPeer (rs_next (x_rust st)) (rs_handlers (x_rust st)) (rs_calls (x_rust st)) (rs_tasks (x_rust st)) (a ++ mkRun h sid d md (Some o) :: b)) (map rust_line (mg ++ [Rep (sid, o)])) (to_rust st)), (mg ++ [Rep (sid, o)]).
  split. { unfold rust_send, encode_all. change (rust_answer sid o) with (rust_frame (Rep (sid, o))). rewrite (rust_bytes _ M), (x_tog _ _ _ I), map_app. reflexivity. }
  match goal with |- ?A /\ _ => assert (I' : A) end.
  { destruct I as [I1 I2 I3 I4 I5 I6 I7 I8 I9 I10 I11 I12]. constructor; cbn [x_go x_rust to_go to_rust rs_next rs_handlers rs_calls rs_tasks rs_runs]; try assumption.
    - reflexivity.
    - rewrite reps_app. exact (s_conclude _ _ _ _ _ idg_inj _ _ refuse_r_ok _ _ _ _ _ I3 _ _ _ _ _ _ _ Er So).
    - rewrite reqs_app. cbn [reqs flat_map]. rewrite app_nil_r. exact I4. }
  split; [exact I'|]. rewrite Wk, (xw_work _ _ _ I'). unfold xw. cbn [x_go x_rust rs_tasks rs_runs]. rewrite Er, line_app, line_cons, !pending_app. change (line_work []) with 0%nat.
  rewrite (pending_cons _ (mkRun h sid d md None)), (pending_cons _ (mkRun h sid d md (Some o))). change (pending [mkRun h sid d md None]) with 1%nat. change (pending [mkRun h sid d md (Some o)]) with 0%nat. lia.
Qed.

(** ** Executions *)
Lemma some_nth : forall A (l : list A) i, nth_error l i <> None -> exists x, nth_error l i = Some x.
Proof. intros A l i E. destruct (nth_error l i) as [x|]; [exists x; reflexivity|congruence]. Qed.
Lemma x_goes : forall st mg mr mv, xinv st mg mr -> x_allowed st mv -> x_enabled st mv ->
  exists st' mg' mr', x_move go_tbl rust_tbl st mv = Some st' /\ xinv st' mg' mr' /\ (x_inner mv = true -> (x_work st' < x_work st)%nat).
Proof.
  intros st mg mr mv I A E. destruct mv as [d md|k| |i|i o|d md| |i|i o|k]; cbn [x_allowed x_enabled] in A, E.
  - destruct (x_gcall st mg mr d md I) as (st' & D & I'); [split; [apply A|split; apply A]|apply A|]. exists st', mg, mr. split; [exact D|split; [exact I'|discriminate]].
  - destruct (some_nth _ _ _ E) as (c & Ec). destruct (x_gsubscribe st mg mr k c I Ec (A c Ec)) as (st' & mr' & D & I'). exists st', mg, mr'. split; [exact D|split; [exact I'|discriminate]].
  - destruct (x_greceive st mg mr I E) as (st' & mg' & D & I' & W). exists st', mg', mr. auto.
  - destruct (some_nth _ _ _ E) as (c & Ec). destruct (x_gtask st mg mr i c I Ec) as (st' & mr' & D & I' & W). exists st', mg, mr'. auto.
  - destruct E as (r & Ec & Ro). destruct (x_gconclude st mg mr i r o I Ec Ro A) as (st' & mr' & D & I' & W). exists st', mg, mr'. auto.
  - destruct A as [A1 A2]. destruct (x_rcall st mg mr d md I A1 A2) as (st' & mg' & D & I'). exists st', mg', mr. split; [exact D|split; [exact I'|discriminate]].
  - destruct (x_rreceive st mg mr I E) as (st' & mr' & D & I' & W). exists st', mg, mr'. auto.
  - destruct (some_nth _ _ _ E) as (c & Ec). destruct (x_rtask st mg mr i c I Ec) as (st' & mg' & D & I' & W). exists st', mg', mr. auto.
  - destruct E as (r & Ec & Ro). destruct (x_rconclude st mg mr i r o I Ec Ro A) as (st' & mg' & D & I' & W). exists st', mg', mr. auto.
  - destruct A.
Qed.
Lemma moved_enabled : forall (st : mix) mv st', x_move go_tbl rust_tbl st mv = Some st' -> x_enabled st mv.
Proof.
  intros st mv st' D. destruct mv as [d md|k| |i|i o|d md| |i|i o|k]; cbn [x_move x_enabled] in *; try exact Logic.I.
  - destruct (nth_error (p_calls (x_go st)) k); [discriminate|discriminate D].
  - intro Z. rewrite Z in D. discriminate D.
  - unfold cut in D. destruct (nth_error (p_tasks (x_go st)) i); [discriminate|discriminate D].
  - unfold cut in D. destruct (nth_error (p_runs (x_go st)) i) as [r|]; [|discriminate D]. exists r. split; [reflexivity|]. destruct r as [h sid d md [o'|]]; [discriminate D|reflexivity].
  - intro Z. rewrite Z in D. discriminate D.
  - unfold cut in D. destruct (nth_error (rs_tasks (x_rust st)) i); [discriminate|discriminate D].
  - unfold cut in D. destruct (nth_error (rs_runs (x_rust st)) i) as [r|]; [|discriminate D]. exists r. split; [reflexivity|]. destruct r as [h sid d md [o'|]]; [discriminate D|reflexivity].
  - destruct (nth_error (rs_calls (x_rust st)) k); [discriminate|discriminate D].
Qed.
Lemma x_keeps : forall st mg mr mv st', xinv st mg mr -> x_allowed st mv -> x_move go_tbl rust_tbl st mv = Some st' ->
  exists mg' mr', xinv st' mg' mr' /\ (x_inner mv = true -> (x_work st' < x_work st)%nat).
Proof.
  intros st mg mr mv st' I A D. destruct (x_goes st mg mr mv I A (moved_enabled _ _ _ D)) as (s & mg' & mr' & D' & I' & W). assert (Q : s = st') by congruence. subst s. exists mg', mr'. auto.
Qed.
Lemma x_reach_inv : forall st, x_reach go_tbl rust_tbl st -> exists mg mr, xinv st mg mr.
Proof.
  intros st R. induction R as [|st m st' R (mg & mr & I) A D]; [exists [], []; apply xinv_init|]. destruct (x_keeps st mg mr m st' I A D) as (mg' & mr' & I' & _). exists mg', mr'. exact I'.
Qed.
End Proofs.
