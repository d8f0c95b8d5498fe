(** C71: channel operations through generated clients and wrappers. *)
From Coq Require Import List NArith ZArith Bool Lia.
From Verif Require Import Base OutcomeModel FramesModel FramesSpec InvokeModel MonoModel FluxModel FluxSpec FluxProofs ProxyModel ProxySpec DispatchModel DispatchSpec ResponderModel ResponderSpec StreamModel StreamSpec StreamSides StreamWire StreamInv StreamProofs.
From Verif Require Import ChannelModel ChannelSpec ChannelWire ChannelProofs ChannelProps.
From Verif Require Import MsgpackModel MsgpackSpec MsgpackClient MsgpackProps TransformModel TransformSpec TransformProofs StubStreamModel StubStreamSpec StubStreamProofs StubChannelModel StubChannelSpec StubChannelProofs.
From Verif Require CallSpec StubModel StubSpec StubProofs.
Import ListNotations.
Open Scope N_scope.

Lemma channel_sendable : forall op, CallSpec.sendable [] (StubModel.stub_metadata op).
Proof. intros op. split; [apply StubProofs.stub_metadata_wf|]. unfold fits32. rewrite StubProofs.stub_metadata_len. split; reflexivity. Qed.
Lemma hears_user : forall H g f64to32 pt text k (c : cconf H), user_hears g f64to32 pt text k c = flat_map (fun e => delivered (fmap_event (decode_item f64to32 pt text k) g e)) (out_seen c).
Proof. intros. apply map_delivered. Qed.
Lemma hears_service : forall H gin f64to32 pt text k (c : cconf H), service_hears gin f64to32 pt text k c = flat_map (fun e => delivered (fmap_event (decode_item f64to32 pt text k) gin e)) (in_seen c).
Proof. intros. apply map_delivered. Qed.

(** Whatever moves come in whatever order: the calls the service made on its sink are items of its type, errors and the end; as long as the service has not
    cancelled its input, what the user's callbacks have seen is a beginning of what is owed for them, and if it has, of what is owed for some of the first of
    them and an end. *)
Theorem C71_down : forall H wp wr (tp tr : ikind -> list (option H)) sp sr g gin sid op h ki ko f64to32 pt text c,
  sid < 2^31 -> op < 2^32 -> few tr -> nth_error (tr RC) (N.to_nat op) = Some (Some h) -> stub_creach wp wr tp tr sp sr g gin sid op ki ko c ->
  exists cs, Forall2 (wired ko) cs (out_emitted c) /\
  (~ cancels_it (reader c) -> exists d, expected g cs = user_hears g f64to32 pt text ko c ++ d) /\
  exists k m d, cs = k ++ m /\ expected g (k ++ [FComplete]) = user_hears g f64to32 pt text ko c ++ d.
Proof.
  intros H wp wr tp tr sp sr g gin sid op h ki ko f64to32 pt text c S L Fw Nm R. apply (channel_names tr op h L) in Nm.
  destruct (out_typed ki ko wp wr tp tr sp sr g gin sid op c R) as [cs W]. exists cs. split; [exact W|]. apply stub_creach_creach in R. rewrite hears_user.
  destruct (C56_down H wp wr tp tr sp sr _ _ sid [] _ h c S (channel_sendable op) Fw Nm R) as [A (k & m & d & E & B)]. split.
  - intro N0. rewrite <- (wired_expected ko g f64to32 pt text _ _ W), <- client_expected. destruct (A N0) as [d' ->]. rewrite flat_map_app. eexists. reflexivity.
  - rewrite E in W. destruct (wired_prefix _ _ _ _ W) as (c1 & c2 & -> & W1). exists c1, c2.
    rewrite <- (wired_expected ko g f64to32 pt text (c1 ++ [FComplete]) (k ++ [FComplete])) by (apply Forall2_app; [exact W1|constructor; [constructor|constructor]]). rewrite <- client_expected, B, flat_map_app. eexists. split; reflexivity.
Qed.
Print Assumptions C71_down.

(** The same the other way: what the service has seen of its input is a beginning of what is owed for the items the user put into it. *)
Theorem C71_up : forall H wp wr (tp tr : ikind -> list (option H)) sp sr g gin sid op ki ko f64to32 pt text c,
  sid < 2^31 -> op < 2^32 -> few tr -> stub_creach wp wr tp tr sp sr g gin sid op ki ko c ->
  exists cs, Forall2 (wired ki) cs (in_emitted c) /\
  (~ cancels_it (caller c) -> exists d, expected gin cs = service_hears gin f64to32 pt text ki c ++ d) /\
  exists k m d, cs = k ++ m /\ expected gin (k ++ [FComplete]) = service_hears gin f64to32 pt text ki c ++ d.
Proof.
  intros H wp wr tp tr sp sr g gin sid op ki ko f64to32 pt text c S L Fw R.
  destruct (in_typed ki ko wp wr tp tr sp sr g gin sid op c R) as [cs W]. exists cs. split; [exact W|]. apply stub_creach_creach in R. rewrite hears_service.
  destruct (C56_up H wp wr tp tr sp sr _ _ sid [] _ c S (channel_sendable op) Fw R) as [A (k & m & d & E & B)]. split.
  - intro N0. rewrite <- (wired_expected ki gin f64to32 pt text _ _ W), <- client_expected. destruct (A N0) as [d' ->]. rewrite flat_map_app. eexists. reflexivity.
  - rewrite E in W. destruct (wired_prefix _ _ _ _ W) as (c1 & c2 & -> & W1). exists c1, c2.
    rewrite <- (wired_expected ki gin f64to32 pt text (c1 ++ [FComplete]) (k ++ [FComplete])) by (apply Forall2_app; [exact W1|constructor; [constructor|constructor]]). rewrite <- client_expected, B, flat_map_app. eexists. split; reflexivity.
Qed.
Print Assumptions C71_up.

(** Once nothing is under way, and if neither has cancelled nor closed, both have seen all of it. *)
Theorem C71_rest : forall H wp wr (tp tr : ikind -> list (option H)) sp sr g gin sid op h ki ko f64to32 pt text c,
  sid < 2^31 -> op < 2^32 -> few tr -> nth_error (tr RC) (N.to_nat op) = Some (Some h) -> stub_creach wp wr tp tr sp sr g gin sid op ki ko c ->
  crest c -> ~ cancels_it (caller c) -> ~ cancels_it (reader c) ->
  (~ closes_it (caller c) -> exists cs, Forall2 (wired ko) cs (out_emitted c) /\ user_hears g f64to32 pt text ko c = expected g cs) /\
  (~ closes_it (reader c) -> exists cs, Forall2 (wired ki) cs (in_emitted c) /\ service_hears gin f64to32 pt text ki c = expected gin cs).
Proof.
  intros H wp wr tp tr sp sr g gin sid op h ki ko f64to32 pt text c S L Fw Nm R A C1 C2. apply (channel_names tr op h L) in Nm.
  destruct (out_typed ki ko wp wr tp tr sp sr g gin sid op c R) as [co Wo]. destruct (in_typed ki ko wp wr tp tr sp sr g gin sid op c R) as [ci Wi]. apply stub_creach_creach in R.
  destruct (C56_rest H wp wr tp tr sp sr _ _ sid [] _ h c S (channel_sendable op) Fw Nm R A C1 C2) as [Q1 Q2]. split; intro C3.
  - exists co. split; [exact Wo|]. rewrite hears_user, (Q1 C3), <- (wired_expected ko g f64to32 pt text _ _ Wo), <- client_expected. reflexivity.
  - exists ci. split; [exact Wi|]. rewrite hears_service, (Q2 C3), <- (wired_expected ki gin f64to32 pt text _ _ Wi), <- client_expected. reflexivity.
Qed.
Print Assumptions C71_rest.

(** The service is called at most once, and exactly once if the call was sent and nothing is under way. *)
Theorem C71_service : forall H wp wr (tp tr : ikind -> list (option H)) sp sr g gin sid op h ki ko c,
  sid < 2^31 -> op < 2^32 -> few tr -> nth_error (tr RC) (N.to_nat op) = Some (Some h) -> stub_creach wp wr tp tr sp sr g gin sid op ki ko c ->
  Forall (fun x => match x with (h', d, _, _) => h' = h /\ d = [] end) (x_runs c) /\
  (length (x_runs c) <= 1)%nat /\ (crest c -> copened c -> length (x_runs c) = 1%nat).
Proof.
  intros H wp wr tp tr sp sr g gin sid op h ki ko c S L Fw Nm R. apply (channel_names tr op h L) in Nm. apply stub_creach_creach in R.
  destruct (C56_handler H wp wr tp tr sp sr _ _ sid [] _ h c S (channel_sendable op) Fw Nm R) as [A B]. split; [|exact B]. eapply Forall_impl; [|exact A]. intros x (r & _ & ->). split; reflexivity.
Qed.
Print Assumptions C71_service.

(** A call whose number has no handler ends with one error that says so; the user's input is not asked for anything. *)
Theorem C71_unknown : forall H wp wr (tp tr : ikind -> list (option H)) sp sr g gin sid op ki ko f64to32 pt text c,
  sid < 2^31 -> op < 2^32 -> few tr -> (forall h, nth_error (tr RC) (N.to_nat op) <> Some (Some h)) -> stub_creach wp wr tp tr sp sr g gin sid op ki ko c ->
  let owed := if k_error g then [VError not_found] else [] in
  x_runs c = [] /\ in_arrived c = 0 /\ (exists d, owed = user_hears g f64to32 pt text ko c ++ d) /\
  (crest c -> copened c -> ~ cancels_it (caller c) -> ~ closes_it (caller c) -> user_hears g f64to32 pt text ko c = owed).
Proof.
  intros H wp wr tp tr sp sr g gin sid op ki ko f64to32 pt text c S L Fw Nm R owed. apply stub_creach_creach in R.
  destruct (C56_refused H wp wr tp tr sp sr _ _ sid [] _ c S (channel_sendable op) Fw (fun h N => Nm h (proj1 (channel_names tr op h L) N)) R) as (A & _ & A2 & (d & B) & D). rewrite StubProofs.stub_metadata_len in B, D.
  change (8 <? 8) with false in B, D. cbn iota in B, D. rewrite hears_user. split; [exact A|]. split; [exact A2|]. unfold owed.
  assert (Q : flat_map (fun e => delivered (fmap_event (decode_item f64to32 pt text ko) g e)) (if k_error (client_cfg g) then [VError not_found] else []) = if k_error g then [VError not_found] else []).
  { cbn [client_cfg k_error]. destruct (k_error g) eqn:K; [|reflexivity]. cbn [flat_map fmap_event]. rewrite K. reflexivity. }
  rewrite <- Q. split; [rewrite B, flat_map_app; eexists; reflexivity|]. intros A1 O U V. rewrite (D A1 O U V). reflexivity.
Qed.
Print Assumptions C71_unknown.

(** Whatever a caller that was not generated sends: the service gets the items that decode and an error for each that does not; and the same the other way. *)
Theorem C71_any : forall H wp wr (tp tr : ikind -> list (option H)) sp sr g gin sid data md h ki ko f64to32 pt text c,
  sid < 2^31 -> CallSpec.sendable data md -> few tr -> names tr RC md h -> creach wp wr tp tr sp sr (client_cfg g) (client_cfg gin) sid data md c ->
  (~ cancels_it (caller c) -> exists d, map_expected (decode_item f64to32 pt text ki) gin (in_emitted c) = service_hears gin f64to32 pt text ki c ++ d) /\
  (~ cancels_it (reader c) -> exists d, map_expected (decode_item f64to32 pt text ko) g (out_emitted c) = user_hears g f64to32 pt text ko c ++ d).
Proof.
  intros H wp wr tp tr sp sr g gin sid data md h ki ko f64to32 pt text c S D F N R. rewrite <- !client_expected, hears_user, hears_service. split; intro C.
  - destruct (proj1 (C56_up H wp wr tp tr sp sr _ _ sid data md c S D F R) C) as [d ->]. rewrite flat_map_app. eexists. reflexivity.
  - destruct (proj1 (C56_down H wp wr tp tr sp sr _ _ sid data md h c S D F N R) C) as [d ->]. rewrite flat_map_app. eexists. reflexivity.
Qed.
Print Assumptions C71_any.

(** ** An execution: two words go up, one comes back, both sides end *)
Definition uc_text (x : rerr) : bytes := [69].
Definition uc_in (b : N) : list cmove := XPCall 1 (QI (RO (FDo (FNext ([0xa1; b], []))))) :: ex_steps 4 ++ [XUp [0; 0; 0; 6; 40; 64]].
Definition uc_out (b : N) : list cmove := XRCall 1 (RO (FDo (FNext ([0xa1; b], [])))) :: ex_rsteps 4 ++ [XDown [0; 0; 0; 6; 40; 64]].
Definition uc_both : list cmove := ex_up ++ uc_in 97 ++ uc_out 65 ++ uc_in 98 ++ ex_in_end ++ ex_out_end.
Definition uc_full : list cmove := uc_both ++ ex_rtaken ++ ex_rtaken ++ ex_rended ++ ex_ptaken ++ ex_pended.
Definition uc_go (ms : list cmove) := run_cmoves Host Guest (fun _ => []) ex_table true true (client_cfg ex_all) (client_cfg ex_all) 5 [] (StubModel.stub_metadata 0) (channel_create 1 1) ms.
Lemma uc_str : forall b, b < 256 -> exists c, wired KStr c (FNext ([0xa1; b], [])).
Proof. intros b L. exists (FNext (SStr [b])). apply w_next; [reflexivity| |reflexivity|reflexivity]. split; [reflexivity|]. apply Forall_cons; [exact L|apply Forall_nil]. Qed.
Lemma uc_typed : Forall (typed_move KStr KStr) uc_full.
Proof.
  assert (Q : forall ms, forallb (fun m => match m with XPCall _ (QI _) | XRCall _ (RO _) => false | _ => true end) ms = true -> Forall (typed_move KStr KStr) ms).
  { intros ms Q. apply Forall_forall. intros m M. rewrite forallb_forall in Q. specialize (Q m M). destruct m as [i [f|f]|i|i| | |j i|i f|i|i| | |j i|bs|bs]; try exact I; try discriminate Q. destruct f; try exact I. discriminate Q. }
  unfold uc_full, uc_both. repeat (apply Forall_app; split); try (apply Q; reflexivity).
  1, 2, 3: apply Forall_cons; [apply uc_str; reflexivity|apply Q; reflexivity].
  1, 2: apply Forall_cons; [eexists; apply w_complete|apply Q; reflexivity].
Qed.
Lemma uc_reached : forall ms c, Forall (typed_move KStr KStr) ms -> uc_go ms = Some c -> stub_creach Host Guest (fun _ => []) ex_table true true ex_all ex_all 5 0 KStr KStr c.
Proof. intros ms c S Q. eapply stub_crun; [apply sc_init|exact S|exact Q]. Qed.
Example C71_example : exists c, stub_creach Host Guest (fun _ => []) ex_table true true ex_all ex_all 5 0 KStr KStr c /\
  (crest c /\ ~ cancels_it (caller c) /\ ~ cancels_it (reader c) /\ ~ closes_it (caller c) /\ ~ closes_it (reader c)) /\
  user_hears ex_all no_round no_parse uc_text KStr c = [VNext (SStr [65]); VComplete] /\
  service_hears ex_all no_round no_parse uc_text KStr c = [VNext (SStr [97]); VNext (SStr [98]); VComplete] /\ map (fun x => fst (fst (fst x))) (x_runs c) = [7%nat].
Proof.
  let v := eval vm_compute in (uc_go uc_full) in match v with Some ?c => exists c; split; [apply (uc_reached uc_full); [exact uc_typed|vm_cast_no_check (eq_refl v)]|] end.
  split; [split; [resting|do 3 (split; [absent|]); absent]|].
  match goal with |- ?p /\ ?q => split; [match p with _ = ?r => vm_cast_no_check (eq_refl r) end|] end.
  match goal with |- ?p /\ ?q => split; [match p with _ = ?r => vm_cast_no_check (eq_refl r) end|reflexivity] end.
Qed.
Example C71_premises : few ex_table /\ nth_error (ex_table RC) (N.to_nat 0) = Some (Some 7%nat) /\ (forall h, nth_error (ex_table RC) (N.to_nat 1) <> Some (Some h)).
Proof. split; [intros []; reflexivity|]. split; [reflexivity|]. intros h. vm_compute. discriminate. Qed.

Lemma uc_any : forall ms c, uc_go ms = Some c -> creach Host Guest (fun _ => []) ex_table true true (client_cfg ex_all) (client_cfg ex_all) 5 [] (StubModel.stub_metadata 0) c.
Proof. intros ms c Q. eapply run_creach; [apply x_init|exact Q]. Qed.
(** Refuted: that the service's input ends with an item that does not decode: it costs the service an error, and the input goes on. *)
Definition uc_garbled : list cmove := ex_up ++ (XPCall 1 (QI (RO (FDo (FNext ([0xc1], []))))) :: ex_steps 4) ++ uc_in 98 ++ [XRRecv; XRAct] ++ repeat (XRStep 0) 4 ++ [XRReturn 0; XRStep 0] ++ ex_rtaken.
Theorem C71_error_ends_refuted : exists c, creach Host Guest (fun _ => []) ex_table true true (client_cfg ex_all) (client_cfg ex_all) 5 [] (StubModel.stub_metadata 0) c /\
  service_hears ex_all no_round no_parse uc_text KStr c = [VError [69]; VNext (SStr [98])].
Proof.
  let v := eval vm_compute in (uc_go uc_garbled) in match v with Some ?c => exists c; split; [apply (uc_any uc_garbled); vm_cast_no_check (eq_refl v)|] end.
  match goal with |- _ = ?r => vm_cast_no_check (eq_refl r) end.
Qed.
Print Assumptions C71_error_ends_refuted.
