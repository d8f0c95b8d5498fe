(** C54: a streaming call brings the subscriber what the named handler emits; each theorem with its assumptions and an example. *)
From Coq Require Import List NArith ZArith Lia Bool.
From Verif Require Import Base FramesModel FramesSpec InvokeModel MonoModel FluxModel FluxSpec ProxyModel ProxySpec DispatchModel DispatchSpec ResponderModel ResponderSpec.
From Verif Require Import StreamModel StreamSpec StreamSides StreamWire StreamInv StreamProofs.
From Verif Require CallSpec.
Import ListNotations.
Open Scope N_scope.

(** A handler with number 0; a request that names it and one that names number 1; a subscriber that asks for everything and one that asks by hand. *)
Definition ex_table (k : ikind) : list (option nat) := match k with RS => [Some 7%nat] | _ => [] end.
Definition ex_md : bytes := [0; 0; 0; 0; 0; 0; 0; 9].
Definition ex_none : bytes := [0; 0; 0; 1; 0; 0; 0; 9].
Definition ex_all : fcfg := mkF true true true false false false.
Definition ex_hand : fcfg := mkF true true true false false true.
Definition ex_run (g : fcfg) (md : bytes) := run_moves Host Guest (fun _ => []) ex_table true true g 5 [1; 2] md (stream_create 1 1).
Definition ex_reach (g : fcfg) (md : bytes) := sreach Host Guest (fun _ => []) ex_table true true g 5 [1; 2] md.
(** The call; the handler's flux is subscribed; two items and the end, each followed by a frame of another stream; they are received. *)
Definition ex_call : list StreamModel.move := MPCall 1 FSubscribe :: repeat (MPStep 1) 8.
Definition ex_started : list StreamModel.move := [MRRecv; MRAct; MRAct; MTask 0 1; MTask 0 1] ++ repeat (MRStep 1) 2 ++ [MRReturn 1] ++ repeat (MRStep 1) 4.
Definition ex_item (d : bytes) : list StreamModel.move := MRCall 1 (FNext (d, [3])) :: repeat (MRStep 1) 4 ++ [MDown [0; 0; 0; 6; 40; 64]].
Definition ex_items : list StreamModel.move := ex_item [10] ++ ex_item [11] ++ MRCall 1 FComplete :: repeat (MRStep 1) 6.
Definition ex_taken : list StreamModel.move := [MPRecv; MPAct] ++ repeat (MPStep 0) 4 ++ [MPReturn 0; MPStep 0; MPRecv].
Definition ex_ended : list StreamModel.move := [MPRecv; MPAct] ++ repeat (MPStep 0) 4 ++ [MPReturn 0] ++ repeat (MPStep 0) 4 ++ [MPAct].

Lemma ex_by : forall g md ms c, ex_run g md ms = Some c -> ex_reach g md c.
Proof. intros g md ms c X. eapply run_reach; [apply s_init|exact X]. Qed.
Ltac reached g md ms :=
  let v := eval vm_compute in (ex_run g md ms) in
  match v with Some ?c => exists c; split; [apply (ex_by g md ms); vm_cast_no_check (eq_refl v)|] end.

Lemma ex_ok : 5 < 2^31 /\ CallSpec.sendable [1; 2] ex_md /\ few ex_table /\ names ex_table RS ex_md 7%nat /\ forall h, ~ names ex_table RS ex_none h.
Proof. split; [reflexivity|]. split; [split; [repeat constructor|split; reflexivity]|]. split; [intros []; reflexivity|]. split; [split; [discriminate|reflexivity]|]. intros h [_ N]. discriminate N. Qed.

(** C54: whatever moves come in whatever order, what the subscriber has seen is a beginning of what is owed for the calls the handler's source made,
    in their order. *)
Theorem C54_stream : forall H wp wr (tp tr : ikind -> list (option H)) sp sr g sid data md h c,
  sid < 2^31 -> CallSpec.sendable data md -> few tr -> names tr RS md h -> sreach wp wr tp tr sp sr g sid data md c ->
  exists d, expected g (emitted c) = seen c ++ d.
Proof. intros H wp wr tp tr sp sr g sid data md h c S D F N R. eapply named_stream; [reflexivity|]. eapply (reach_sys wp wr tp tr sp sr g sid data md S D F (Some h) N). exact R. Qed.
Print Assumptions C54_stream.
Example C54_stream_example : exists c, ex_reach ex_all ex_md c /\ seen c = [VNext ([10], [3])] /\ emitted c = [FSubscribe; FRequest 2147483647; FNext ([10], [3]); FNext ([11], [3]); FComplete].
Proof.
  reached ex_all ex_md (ex_call ++ ex_started ++ ex_items ++ ex_taken). split; reflexivity.
Qed.

(** C54: once nothing is under way, and if the subscriber has neither cancelled nor closed, it has seen all of it. *)
Theorem C54_rest : forall H wp wr (tp tr : ikind -> list (option H)) sp sr g sid data md h c,
  sid < 2^31 -> CallSpec.sendable data md -> few tr -> names tr RS md h -> sreach wp wr tp tr sp sr g sid data md c ->
  at_rest c -> undisturbed c -> seen c = expected g (emitted c).
Proof. intros H wp wr tp tr sp sr g sid data md h c S D F N R A U. eapply named_rest; [reflexivity| |exact A|exact U]. eapply (reach_sys wp wr tp tr sp sr g sid data md S D F (Some h) N). exact R. Qed.
Print Assumptions C54_rest.
Example C54_rest_example : exists c, ex_reach ex_all ex_md c /\ at_rest c /\ undisturbed c /\ seen c = [VNext ([10], [3]); VNext ([11], [3]); VComplete].
Proof.
  reached ex_all ex_md (ex_call ++ ex_started ++ ex_items ++ ex_taken ++ ex_taken ++ ex_ended).
  split; [repeat split; eexists; reflexivity|]. split; [|reflexivity]. split; intro Z; repeat (destruct Z as [Z|Z]; [discriminate Z|]); exact Z.
Qed.

(** C54: the named handler runs at most once, with the payload of the call and the credit of the frame that opened it; and exactly once when that
    frame was sent and nothing is under way. *)
Theorem C54_handler : forall H wp wr (tp tr : ikind -> list (option H)) sp sr g sid data md h c,
  sid < 2^31 -> CallSpec.sendable data md -> few tr -> names tr RS md h -> sreach wp wr tp tr sp sr g sid data md c ->
  Forall (fun x => exists r, In (FramesModel.FRequest r) (frames_sent (c_ptr c)) /\ x = (h, data, handler_metadata wr RS md, rf_initial_n r)) (c_runs c) /\
  (length (c_runs c) <= 1)%nat /\ (at_rest c -> opened c -> length (c_runs c) = 1%nat).
Proof. intros H wp wr tp tr sp sr g sid data md h c S D F N R. eapply (named_runs wr sp g sid data md S (Some h) h eq_refl). eapply (reach_sys wp wr tp tr sp sr g sid data md S D F (Some h) N). exact R. Qed.
Print Assumptions C54_handler.
Example C54_handler_example : exists c, ex_reach ex_all ex_md c /\ opened c /\ c_runs c = [(7%nat, [1; 2], ex_md, 2147483647)].
Proof.
  reached ex_all ex_md (ex_call ++ ex_started). split; [|reflexivity]. eexists. left. reflexivity.
Qed.

(** C54: a call that names no handler runs none and its subscriber sees one error and nothing else. *)
Theorem C54_refused : forall H wp wr (tp tr : ikind -> list (option H)) sp sr g sid data md c,
  sid < 2^31 -> CallSpec.sendable data md -> few tr -> (forall h, ~ names tr RS md h) -> sreach wp wr tp tr sp sr g sid data md c ->
  let owed := if k_error g then [VError (if len md <? 8 then invalid_metadata else not_found)] else [] in
  c_runs c = [] /\ (exists d, owed = seen c ++ d) /\ (at_rest c -> opened c -> undisturbed c -> seen c = owed).
Proof.
  intros H wp wr tp tr sp sr g sid data md c S D F N R. assert (Y := reach_sys wp wr tp tr sp sr g sid data md S D F None N c R). split; [eapply refused_runs; [reflexivity|exact Y]|].
  assert (Z := refused_seen wr sp g sid data md S None eq_refl c Y). unfold expected in Z. cbn [upto closes flat_map delivers] in Z. rewrite app_nil_r in Z. exact Z.
Qed.
Print Assumptions C54_refused.
Example C54_refused_example : exists c, ex_reach ex_all ex_none c /\ opened c /\ at_rest c /\ undisturbed c /\ seen c = [VError not_found] /\ c_runs c = [].
Proof.
  reached ex_all ex_none (ex_call ++ [MRRecv; MRAct; MTask 0 1; MPRecv; MPAct] ++ repeat (MPStep 0) 4 ++ [MPReturn 0] ++ repeat (MPStep 0) 3 ++ [MPAct] ++ repeat (MPStep 0) 3 ++ [MPAct]). split; [eexists; left; reflexivity|]. split; [repeat split; eexists; reflexivity|]. split; [|split; reflexivity]. split; intro Z; repeat (destruct Z as [Z|Z]; [discriminate Z|]); exact Z.
Qed.

(** C54: the responder never gets more credit than the requester sent. *)
Theorem C54_credit : forall H wp wr (tp tr : ikind -> list (option H)) sp sr g sid data md c,
  sid < 2^31 -> CallSpec.sendable data md -> few tr -> sreach wp wr tp tr sp sr g sid data md c -> arrived c <= total (c_ptr c).
Proof.
  intros H wp wr tp tr sp sr g sid data md c S D F R. destruct (verdict_ex sid md S tr) as [K V]. eapply (sys_credit wr sp g sid data md S K). eapply (reach_sys wp wr tp tr sp sr g sid data md S D F K V). exact R.
Qed.
Print Assumptions C54_credit.
(** Two requests; the second is received after the handler's flux has been subscribed. *)
Definition ex_ask (n : Z) : list StreamModel.move := MPCall 1 (FRequest n) :: repeat (MPStep 1) 5.
Definition ex_subscribed : list StreamModel.move := MPCall 1 FSubscribe :: repeat (MPStep 1) 4.
Example C54_credit_example : exists c, ex_reach ex_hand ex_md c /\ arrived c = 8 /\ total (c_ptr c) = 8.
Proof.
  reached ex_hand ex_md (ex_subscribed ++ ex_ask 5 ++ ex_ask 3 ++ ex_started ++ [MRRecv; MRAct; MTask 0 1; MRStep 1]). split; reflexivity.
Qed.

(** Refuted: that all of it arrives.  A RequestN frame received before the goroutine that handles the request has registered the stream is dropped. *)
Theorem C54_credit_refuted : exists c, ex_reach ex_hand ex_md c /\ at_rest c /\ undisturbed c /\ total (c_ptr c) = 8 /\ arrived c = 5.
Proof.
  reached ex_hand ex_md (ex_subscribed ++ ex_ask 5 ++ ex_ask 3 ++ [MRRecv; MRAct; MRAct; MRRecv; MTask 0 1; MTask 0 1] ++ repeat (MRStep 1) 2 ++ [MRReturn 1] ++ repeat (MRStep 1) 4). split; [repeat split; eexists; reflexivity|]. split; [|split; reflexivity]. split; intro Z; repeat (destruct Z as [Z|Z]; [discriminate Z|]); exact Z.
Qed.
Print Assumptions C54_credit_refuted.

(** Refuted: that a request of more items is harmless.  A RequestN frame received when the stream is registered and the handler's flux not yet
    subscribed calls Request on a nil subscription. *)
Theorem C54_early_refuted : exists c, ex_reach ex_hand ex_md c /\ nth_error (c_rths c) 1 = Some [RNetDo (RNRequest 3); RO FUser] /\
  do_move Host Guest (fun _ => []) ex_table true true ex_hand 5 [1; 2] ex_md c (MRStep 1) = None.
Proof.
  reached ex_hand ex_md (ex_subscribed ++ ex_ask 5 ++ ex_ask 3 ++ [MRRecv; MRAct; MRAct; MTask 0 1; MRRecv; MRAct; MTask 1 1]). split; reflexivity.
Qed.
Print Assumptions C54_early_refuted.

(** Refuted: that a subscriber can cancel.  The responder takes a Cancel frame of a stream for the end of its input, of which there is none. *)
Theorem C54_cancel_refuted : exists c, ex_reach ex_all ex_md c /\ nth_error (c_rths c) 0 = Some [RNetDo RNComplete; RO FUser] /\
  do_move Host Guest (fun _ => []) ex_table true true ex_all 5 [1; 2] ex_md c (MRStep 0) = None.
Proof.
  reached ex_all ex_md (ex_call ++ ex_started ++ ex_item [10] ++ MPCall 1 FluxModel.FCancel :: repeat (MPStep 1) 3 ++ [MRRecv; MRAct]). split; reflexivity.
Qed.
Print Assumptions C54_cancel_refuted.

(** C54: at most one frame opens the stream, and it is a RequestStream with the call's stream id, payload and metadata, neither to be continued nor
    complete. *)
Definition opening (f : frame) : bool := match f with FramesModel.FRequest _ => true | _ => false end.
Lemma opening_quiet : forall evs, forallb ProxyProofs.quiet evs = true -> filter opening (frames_sent evs) = [].
Proof. induction evs as [|e t IH]; [reflexivity|]. cbn [forallb]. rewrite andb_true_iff. intros [A B]. destruct e; try discriminate A; exact (IH B). Qed.
Lemma opening_shape : forall r st st' evs, ProxyProofs.pshape r st st' evs ->
  filter opening (frames_sent evs) = [] /\ p_first st' = p_first st \/ p_first st = true /\ p_first st' = false /\ exists n, filter opening (frames_sent evs) = [with_n r n].
Proof.
  intros r st st' evs X. destruct X as [st' evs Q F _|n _|n _ F|n _ _| |]; try (left; split; reflexivity).
  - left. split; [exact (opening_quiet evs Q)|exact F].
  - right. split; [exact F|]. split; [reflexivity|]. exists n. reflexivity.
Qed.
Lemma opening_kept : forall H wp wr (tp tr : ikind -> list (option H)) sp sr g sid data md c m c', do_move wp wr tp tr sp sr g sid data md c m = Some c' ->
  c_ptr c' = c_ptr c /\ c_p c' = c_p c \/ exists evs, c_ptr c' = c_ptr c ++ evs /\ ProxyProofs.pshape (stream_request sid data md) (c_p c) (c_p c') evs.
Proof.
  intros H wp wr tp tr sp sr g sid data md c m c' X. destruct m; cbn [do_move] in X; cbv zeta in X.
  3: { destruct (CallModel.cut i (c_pths c)) as [[[l [|it stack]] rest]|]; try discriminate X. destruct (pstep _ _ _ _ _ it) as [[[[st its] new] evs]|] eqn:P; [|discriminate X].
       destruct (posts _ _); [|discriminate X]. injection X as <-. right. exists evs. split; [reflexivity|]. exact (ProxyProofs.pstep_shape _ _ _ _ _ _ _ _ _ _ P). }
  all: left; repeat match type of X with
    | Some _ = Some _ => injection X as <-
    | None = Some _ => discriminate X
    | context [match ?m with _ => _ end] => destruct m; try discriminate X
    end; try (split; (reflexivity || apply app_nil_r)).
Qed.
Lemma opening_one : forall H wp wr (tp tr : ikind -> list (option H)) sp sr g sid data md c, sreach wp wr tp tr sp sr g sid data md c ->
  if p_first (c_p c) then filter opening (frames_sent (c_ptr c)) = [] else exists n, filter opening (frames_sent (c_ptr c)) = [with_n (stream_request sid data md) n].
Proof.
  intros H wp wr tp tr sp sr g sid data md c R. induction R as [n m|c m c' R IH A X]; [reflexivity|].
  destruct (opening_kept _ _ _ _ _ _ _ _ _ _ _ _ _ _ X) as [[-> ->]|(evs & -> & S)]; [exact IH|].
  assert (Z : filter opening (frames_sent (c_ptr c ++ evs)) = filter opening (frames_sent (c_ptr c)) ++ filter opening (frames_sent evs)).
  { unfold frames_sent. rewrite flat_map_app. apply filter_app. }
  rewrite Z. destruct (opening_shape _ _ _ _ S) as [[-> ->]|(F & -> & n & E)]; [rewrite app_nil_r; exact IH|]. rewrite F in IH. rewrite IH. exists n. exact E.
Qed.
Theorem C54_request : forall H wp wr (tp tr : ikind -> list (option H)) sp sr g sid data md c, sreach wp wr tp tr sp sr g sid data md c ->
  filter opening (frames_sent (c_ptr c)) = [] \/ exists n, filter opening (frames_sent (c_ptr c)) = [FramesModel.FRequest (mkRequest 6 sid md data false false n)].
Proof.
  intros H wp wr tp tr sp sr g sid data md c R. assert (Y := opening_one _ _ _ _ _ _ _ _ _ _ _ _ R). destruct (p_first (c_p c)); [left; exact Y|right].
  destruct Y as [n Y]. eexists. exact Y.
Qed.
Print Assumptions C54_request.
Example C54_request_example : exists c, ex_reach ex_all ex_md c /\ frames_sent (c_ptr c) = [FramesModel.FRequest (mkRequest 6 5 ex_md [1; 2] false false 2147483647)].
Proof. reached ex_all ex_md ex_call. reflexivity. Qed.
