(** C69: streaming operations through generated clients and wrappers. *)
From Coq Require Import List NArith ZArith Bool Lia.
From Verif Require Import Base OutcomeModel FramesModel FramesSpec InvokeModel MonoModel FluxModel FluxSpec FluxProofs ProxyModel ProxySpec DispatchModel DispatchSpec ResponderModel ResponderSpec StreamModel StreamSpec StreamSides StreamWire StreamInv StreamProofs StreamProps.
From Verif Require Import MsgpackModel MsgpackSpec MsgpackClient MsgpackProps TransformModel TransformSpec TransformProofs StubStreamModel StubStreamSpec StubStreamProofs.
From Verif Require CallSpec StubModel StubSpec StubProofs.
Import ListNotations.
Open Scope N_scope.

Lemma stub_sendable : forall data op, fits32 (StubModel.stub_metadata op) data -> CallSpec.sendable data (StubModel.stub_metadata op).
Proof. intros data op F. split; [apply StubProofs.stub_metadata_wf|]. split; [|exact F]. rewrite StubProofs.stub_metadata_len. reflexivity. Qed.

(** Whatever moves come in whatever order: the calls the service made on its sink are items of its type, errors and the end, and what the user's callbacks have
    seen is a beginning of what is owed for them - the items themselves, in order, and the end or the error; once nothing is under way, and if the user has
    neither cancelled nor closed, all of it. *)
Theorem C69_stream : forall H wp wr (tp tr : ikind -> list (option H)) sp sr g sid data op h k f64to32 pt text c,
  sid < 2^31 -> op < 2^32 -> fits32 (StubModel.stub_metadata op) data -> few tr -> nth_error (tr RS) (N.to_nat op) = Some (Some h) ->
  stub_sreach wp wr tp tr sp sr g sid data (StubModel.stub_metadata op) k c ->
  exists cs, Forall2 (wired k) cs (emitted c) /\ (exists d, expected g cs = user_seen g f64to32 pt text k c ++ d) /\
  (at_rest c -> undisturbed c -> user_seen g f64to32 pt text k c = expected g cs).
Proof.
  intros H wp wr tp tr sp sr g sid data op h k f64to32 pt text c S L F Fw Nm R. apply stub_sendable in F. apply (stream_names tr op h L) in Nm.
  destruct (emitted_typed k wp wr tp tr sp sr g sid data _ c R) as [cs W]. exists cs. split; [exact W|]. apply stub_sreach_sreach in R.
  rewrite <- (wired_expected k g f64to32 pt text _ _ W), <- client_expected, user_seen_seen. split.
  - destruct (C54_stream H wp wr tp tr sp sr _ sid data _ h c S F Fw Nm R) as [d ->]. rewrite flat_map_app. eexists. reflexivity.
  - intros A U. rewrite (C54_rest H wp wr tp tr sp sr _ sid data _ h c S F Fw Nm R A U). reflexivity.
Qed.
Print Assumptions C69_stream.

(** The calls on the sink are known from those on the flux of the wrapper: no two lists of calls look alike to the caller. *)
Theorem C69_faithful : forall k cs cs' l, Forall2 (wired k) cs l -> Forall2 (wired k) cs' l -> cs = cs'.
Proof.
  intros k cs cs' l W. revert cs'. induction W as [|c x cs l C W IH]; intros cs' W'; inversion_clear W' as [|c' ? cs1 ? C' W1]; [reflexivity|]. f_equal; [|apply IH; exact W1].
  destruct C as [s p K O B E| | | | | | | | ]; inversion C' as [s' p' K' O' B' E' Q Q'| | | | | | | | ]; try reflexivity. f_equal.
  destruct (transform_round no_round no_parse s O B) as (d & E1 & E2). destruct (transform_round no_round no_parse s' O' B') as (d' & E1' & E2').
  unfold encode_item in *. rewrite E1 in E. rewrite E1', <- E in E'. injection E' as ->. rewrite K' in E2'. rewrite K in E2. congruence.
Qed.
Print Assumptions C69_faithful.

(** The service is called at most once, with the arguments the user gave - and exactly once if the call was sent and nothing is under way. *)
Theorem C69_service : forall H wp wr (tp tr : ikind -> list (option H)) sp sr g sid data op h k f64to32 pt text c sc e sc' z,
  sid < 2^31 -> op < 2^32 -> fits32 (StubModel.stub_metadata op) data -> few tr -> nth_error (tr RS) (N.to_nat op) = Some (Some h) ->
  stub_sreach wp wr tp tr sp sr g sid data (StubModel.stub_metadata op) k c ->
  StubModel.stub_call sc op e = Ret (data, StubModel.stub_metadata op) -> StubSpec.callable sc e -> NoDup (map fst sc') -> StubSpec.readable sc e sc' ->
  Forall (fun x => match x with (h', d, _, _) => h' = h /\ stream_start f64to32 pt text sid sc' z d = ([], Ret (given sc e sc' z)) end) (c_runs c) /\
  (length (c_runs c) <= 1)%nat /\ (at_rest c -> opened c -> length (c_runs c) = 1%nat).
Proof.
  intros H wp wr tp tr sp sr g sid data op h k f64to32 pt text c sc e sc' z S L F Fw Nm R Sc C ND Rd. apply stub_sendable in F. apply (stream_names tr op h L) in Nm. apply stub_sreach_sreach in R.
  destruct (C54_handler H wp wr tp tr sp sr _ sid data _ h c S F Fw Nm R) as [A B]. split; [|exact B]. eapply Forall_impl; [|exact A].
  intros x (r & _ & ->). split; [reflexivity|]. unfold stream_start. unfold StubModel.stub_call in Sc. destruct (codec_encode sc e) as [d|x|] eqn:E; try discriminate Sc. injection Sc as ->.
  rewrite (stream_given f64to32 pt text sc e sc' z data C ND Rd E). reflexivity.
Qed.
Print Assumptions C69_service.

(** A call whose number has no handler ends with one error that says so. *)
Theorem C69_unknown : forall H wp wr (tp tr : ikind -> list (option H)) sp sr g sid data op k f64to32 pt text c,
  sid < 2^31 -> op < 2^32 -> fits32 (StubModel.stub_metadata op) data -> few tr -> (forall h, nth_error (tr RS) (N.to_nat op) <> Some (Some h)) ->
  stub_sreach wp wr tp tr sp sr g sid data (StubModel.stub_metadata op) k c ->
  let owed := if k_error g then [VError not_found] else [] in
  c_runs c = [] /\ (exists d, owed = user_seen g f64to32 pt text k c ++ d) /\ (at_rest c -> opened c -> undisturbed c -> user_seen g f64to32 pt text k c = owed).
Proof.
  intros H wp wr tp tr sp sr g sid data op k f64to32 pt text c S L F Fw Nm R owed. apply stub_sendable in F. apply stub_sreach_sreach in R.
  destruct (C54_refused H wp wr tp tr sp sr _ sid data _ c S F Fw (fun h N => Nm h (proj1 (stream_names tr op h L) N)) R) as (A & (d & B) & D). rewrite StubProofs.stub_metadata_len in B, D.
  change (8 <? 8) with false in B, D. cbn iota in B, D. rewrite user_seen_seen. split; [exact A|]. unfold owed.
  assert (Q : flat_map (fun e => delivered (fmap_event (decode_item f64to32 pt text k) g e)) (if k_error (client_cfg g) then [VError not_found] else []) = if k_error g then [VError not_found] else []).
  { cbn [client_cfg k_error]. destruct (k_error g) eqn:K; [|reflexivity]. cbn [flat_map fmap_event]. rewrite K. reflexivity. }
  rewrite <- Q. split; [rewrite B, flat_map_app; eexists; reflexivity|]. intros A1 O U. rewrite (D A1 O U). reflexivity.
Qed.
Print Assumptions C69_unknown.

(** ** Services that were not generated *)

(** Whatever payloads the handler emits: the user gets those that decode, and an error for each that does not. *)
Theorem C69_any : forall H wp wr (tp tr : ikind -> list (option H)) sp sr g sid data md h k f64to32 pt text c,
  sid < 2^31 -> CallSpec.sendable data md -> few tr -> names tr RS md h -> sreach wp wr tp tr sp sr (client_cfg g) sid data md c ->
  (exists d, map_expected (decode_item f64to32 pt text k) g (emitted c) = user_seen g f64to32 pt text k c ++ d) /\
  (at_rest c -> undisturbed c -> user_seen g f64to32 pt text k c = map_expected (decode_item f64to32 pt text k) g (emitted c)).
Proof.
  intros H wp wr tp tr sp sr g sid data md h k f64to32 pt text c S D F N R. rewrite <- client_expected, user_seen_seen. split.
  - destruct (C54_stream H wp wr tp tr sp sr _ sid data md h c S D F N R) as [d ->]. rewrite flat_map_app. eexists. reflexivity.
  - intros A U. rewrite (C54_rest H wp wr tp tr sp sr _ sid data md h c S D F N R A U). reflexivity.
Qed.
Print Assumptions C69_any.

(** ** Executions *)
Definition ex_text (x : rerr) : bytes := [69].
Definition ex_k : kind := KStr.
Definition ex_say (p : pay) : list StreamModel.move := MRCall 1 (FNext p) :: repeat (MRStep 1) 4.
Definition ex_say_end : list StreamModel.move := MRCall 1 FComplete :: repeat (MRStep 1) 6.
Definition ex_hear : list StreamModel.move := [MPRecv; MPAct] ++ repeat (MPStep 0) 4 ++ [MPReturn 0; MPStep 0].
(** counter.go: a request of one field, [to] = 2; two numbers come back as strings. *)
Definition ex_schema : schema := [([116; 111], FScal KU64)].
Definition ex_two : env := fun _ => VScal (SU64 2).
Definition ex_data : bytes := match codec_encode ex_schema ex_two with Ret d => d | _ => [] end.
Definition ex_counter : list StreamModel.move := ex_call ++ ex_started ++ ex_say ([0xa1; 48], []) ++ ex_say ([0xa1; 49], []) ++ ex_say_end ++ ex_hear ++ ex_hear ++ ex_ended.
Definition ex_go (ms : list StreamModel.move) := run_moves Host Guest (fun _ => []) ex_table true true (client_cfg ex_all) 5 ex_data (StubModel.stub_metadata 0) (stream_create 1 1) ms.

Lemma ex_str : forall b, b < 256 -> served ex_k (MRCall 1 (FNext ([0xa1; b], []))).
Proof.
  intros b L. exists (FNext (SStr [b])). apply w_next; [reflexivity| |reflexivity|reflexivity]. split; [reflexivity|]. apply Forall_cons; [exact L|apply Forall_nil].
Qed.
Lemma ex_quiet : forall ms, forallb (fun m => match m with MRCall _ _ => false | _ => true end) ms = true -> Forall (served ex_k) ms.
Proof. intros ms Q. apply Forall_forall. intros m M. rewrite forallb_forall in Q. specialize (Q m M). destruct m; try exact I. discriminate Q. Qed.
Lemma ex_served : Forall (served ex_k) ex_counter.
Proof.
  unfold ex_counter. repeat (apply Forall_app; split); try (apply ex_quiet; reflexivity).
  1, 2: apply Forall_cons; [apply ex_str; reflexivity|apply ex_quiet; reflexivity].
  apply Forall_cons; [eexists; apply w_complete|apply ex_quiet; reflexivity].
Qed.
Lemma ex_reached : forall ms c, Forall (served ex_k) ms -> ex_go ms = Some c ->
  stub_sreach Host Guest (fun _ => []) ex_table true true ex_all 5 ex_data (StubModel.stub_metadata 0) ex_k c.
Proof. intros ms c S Q. eapply stub_run; [apply ss_init|exact S|exact Q]. Qed.
Example C69_example : exists c, stub_sreach Host Guest (fun _ => []) ex_table true true ex_all 5 ex_data (StubModel.stub_metadata 0) ex_k c /\ at_rest c /\ undisturbed c /\
  user_seen ex_all no_round no_parse ex_text ex_k c = [VNext (SStr [48]); VNext (SStr [49]); VComplete] /\
  map (fun x => match x with (_, d, _, _) => stream_start no_round no_parse ex_text 5 ex_schema (fun _ => VScal (SU64 0)) d end) (c_runs c) = [([], Ret [VScal (SU64 2)])].
Proof.
  let v := eval vm_compute in (ex_go ex_counter) in match v with Some ?c => exists c; split; [apply (ex_reached ex_counter); [exact ex_served|vm_cast_no_check (eq_refl v)]|] end.
  split; [repeat split; eexists; reflexivity|]. split; [split; intro Z; repeat (destruct Z as [Z|Z]; [discriminate Z|]); exact Z|].
  match goal with |- ?p /\ ?q => split; [match p with _ = ?r => vm_cast_no_check (eq_refl r) end|match q with _ = ?r => vm_cast_no_check (eq_refl r) end] end.
Qed.
(** The premises of C69_service and C69_stream hold of it. *)
Example C69_premises : StubModel.stub_call ex_schema 0 ex_two = Ret (ex_data, StubModel.stub_metadata 0) /\ StubSpec.callable ex_schema ex_two /\ StubSpec.readable ex_schema ex_two ex_schema /\
  fits32 (StubModel.stub_metadata 0) ex_data /\ few ex_table /\ nth_error (ex_table RS) (N.to_nat 0) = Some (Some 7%nat).
Proof.
  split; [reflexivity|]. split; [split; [|split]|].
  - split; [repeat constructor; cbn; tauto|]. split; [reflexivity|]. apply Forall_cons; [|apply Forall_nil]. split; [reflexivity|]. repeat constructor.
  - apply Forall_cons; [|apply Forall_nil]. vm_compute. repeat split.
  - reflexivity.
  - split; [|split; [reflexivity|split; [intros []; reflexivity|reflexivity]]]. intros n k I0. destruct I0 as [Q|[]]. injection Q as <- <-. split; [intros k' [Q|[]]; congruence|]. intro No. contradiction No. left. reflexivity.
Qed.

(** Refuted: that a stream ends with its first error.  A payload that does not decode costs the user an error, and the stream goes on. *)
Definition ex_garbled : list StreamModel.move := ex_call ++ ex_started ++ ex_say ([0xc1], []) ++ ex_say ([0xa1; 49], []) ++ ex_say_end ++ ex_hear ++ ex_hear ++ ex_ended.
Lemma ex_any : forall ms c, ex_go ms = Some c -> sreach Host Guest (fun _ => []) ex_table true true (client_cfg ex_all) 5 ex_data (StubModel.stub_metadata 0) c.
Proof. intros ms c Q. eapply run_reach; [apply s_init|exact Q]. Qed.
Theorem C69_error_ends_refuted : exists c, sreach Host Guest (fun _ => []) ex_table true true (client_cfg ex_all) 5 ex_data (StubModel.stub_metadata 0) c /\
  user_seen ex_all no_round no_parse ex_text ex_k c = [VError [69]; VNext (SStr [49]); VComplete].
Proof.
  let v := eval vm_compute in (ex_go ex_garbled) in match v with Some ?c => exists c; split; [apply (ex_any ex_garbled); vm_cast_no_check (eq_refl v)|] end.
  match goal with |- _ = ?r => vm_cast_no_check (eq_refl r) end.
Qed.
Print Assumptions C69_error_ends_refuted.

(** ** Requests that do not decode *)

(** The wrapper stops the whole process exactly on requests its record cannot be decoded from; an error frame is sent first. *)
Theorem C69_crash : forall f64to32 pt text sid sc z data,
  (snd (stream_start f64to32 pt text sid sc z data) = Panic <-> forall e, codec_decode f64to32 pt sc (S (length data)) z data <> Ret e) /\
  forall x, codec_decode f64to32 pt sc (S (length data)) z data = Fail x -> fst (stream_start f64to32 pt text sid sc z data) = [FramesModel.FError sid 0 (text x)].
Proof.
  intros f64to32 pt text sid sc z data. unfold stream_start, stream_wrapper. destruct (codec_decode f64to32 pt sc (S (length data)) z data) as [e|x|]; cbn [fst snd]; split.
  - split; [discriminate|]. intro X. contradiction (X e). reflexivity.
  - discriminate.
  - split; [discriminate|reflexivity].
  - intros x' Q. injection Q as ->. reflexivity.
  - split; [discriminate|reflexivity].
  - discriminate.
Qed.
Print Assumptions C69_crash.
(** Refuted: that a peer can send the wrapper any request it likes. *)
Theorem C69_crash_refuted : exists data, CallSpec.sendable data (StubModel.stub_metadata 0) /\
  stream_start no_round no_parse ex_text 5 ex_schema (fun _ => VScal (SU64 0)) data = ([FramesModel.FError 5 0 [69]], Panic).
Proof. exists []. split; [apply stub_sendable; reflexivity|reflexivity]. Qed.
Print Assumptions C69_crash_refuted.
