(** C83: what the Go subscriber of a stream that a Rust guest serves sees; each theorem with its assumptions and an example. *)
From Coq Require Import List NArith ZArith Lia Bool.
From Verif Require Import Base FramesModel FramesSpec InvokeModel MonoModel FluxModel FluxSpec ProxyModel ProxySpec DispatchModel DispatchSpec ResponderModel.
From Verif Require Import StreamModel StreamSpec RustStreamModel RustStreamSpec RustStreamProofs.
From Verif Require CallSpec RustCallModel.
Import ListNotations.
Open Scope N_scope.

(** A guest with two handlers; requests that name the second, none, and too short ones; a subscriber that asks for everything, one that asks by hand. *)
Definition ex_go (k : ikind) : list (option nat) := [].
Definition ex_tbl : list nat := [6%nat; 7%nat].
Definition ex_md : bytes := [0; 0; 0; 1; 0; 0; 0; 9].
Definition ex_none : bytes := [0; 0; 0; 2; 0; 0; 0; 9].
Definition ex_all : fcfg := mkF true true true false false false.
Definition ex_hand : fcfg := mkF true true true false false true.
Definition ex_run (g : fcfg) (md : bytes) := s_run Host ex_go true g ex_tbl 4 [1; 2] md (rs_create 1).
Definition ex_reach (g : fcfg) (md : bytes) := s_reach Host ex_go true g ex_tbl 4 [1; 2] md.
Definition ex_call : list smove := SCall 1 FSubscribe :: repeat (SStep 1) 8.
Definition ex_open : list smove := [SGive; STask 0].
Definition ex_item (d : bytes) : list smove := [SPush 0 (Item (d, [3])); STask 0; SDown [0; 0; 0; 6; 40; 64]].
Definition ex_taken : list smove := [SRecv; SAct] ++ repeat (SStep 0) 4 ++ [SReturn 0; SStep 0; SRecv].
(** An item that uses up what was asked for. *)
Definition ex_last : list smove := [SRecv; SAct] ++ repeat (SStep 0) 4 ++ [SReturn 0; SStep 0; SStep 0; SRecv].
Definition ex_ended : list smove := [SRecv; SAct] ++ repeat (SStep 0) 4 ++ [SReturn 0] ++ repeat (SStep 0) 4 ++ [SAct].
(** After an error. *)
Definition ex_failed : list smove := [SRecv; SAct] ++ repeat (SStep 0) 4 ++ [SReturn 0] ++ repeat (SStep 0) 3 ++ [SAct] ++ repeat (SStep 0) 3 ++ [SAct].
(** By hand. *)
Definition ex_subscribed : list smove := SCall 1 FSubscribe :: repeat (SStep 1) 4.
Definition ex_ask (n : Z) : list smove := SCall 1 (FRequest n) :: repeat (SStep 1) 5.

Lemma ex_by : forall g md ms c, ex_run g md ms = Some c -> ex_reach g md c.
Proof. intros g md ms c X. eapply s_run_reach; [apply sr_init|exact X]. Qed.
Ltac reached g md ms :=
  let v := eval vm_compute in (ex_run g md ms) in
  match v with Some ?c => exists c; split; [apply (ex_by g md ms); vm_cast_no_check (eq_refl v)|] end.
Ltac untouched := split; let U := fresh in intro U; vm_compute in U; repeat (destruct U as [U|U]; [discriminate U|]); exact U.
Ltac resting := split; [reflexivity|]; split; [reflexivity|]; split; [reflexivity|]; split; [eexists; reflexivity|reflexivity].

(** C83: whatever moves come in whatever order, what the subscriber has seen is a beginning of what is owed for what the guest said on the stream. *)
Theorem C83_stream : forall Hg Hr w (go_tbl : ikind -> list (option Hg)) sp g (tbl : list Hr) sid data md c,
  sid < 2^31 -> CallSpec.sendable data md -> wf data -> s_reach w go_tbl sp g tbl sid data md c ->
  exists d, expected g (as_calls (s_said c)) = s_seen c ++ d.
Proof. intros Hg Hr w go_tbl sp g tbl sid data md c S D W R. eapply sys_seen. exact (reach_sys w go_tbl sp g tbl sid data md S D W c R). Qed.
Print Assumptions C83_stream.
Example C83_stream_example : exists c, ex_reach ex_all ex_md c /\ s_seen c = [VNext ([10], [3])] /\ s_said c = [Told (Item ([10], [3])); Told (Item ([11], [3]))].
Proof. reached ex_all ex_md (ex_call ++ ex_open ++ ex_item [10] ++ ex_item [11] ++ ex_taken). split; reflexivity. Qed.

(** C83: once nothing is under way, and if the subscriber has neither cancelled nor closed, it has seen all of it. *)
Theorem C83_rest : forall Hg Hr w (go_tbl : ikind -> list (option Hg)) sp g (tbl : list Hr) sid data md c,
  sid < 2^31 -> CallSpec.sendable data md -> wf data -> s_reach w go_tbl sp g tbl sid data md c -> s_rest c -> s_undisturbed c ->
  s_seen c = expected g (as_calls (s_said c)).
Proof. intros Hg Hr w go_tbl sp g tbl sid data md c S D W R A U. eapply sys_rest; [|exact A|exact U]. exact (reach_sys w go_tbl sp g tbl sid data md S D W c R). Qed.
Print Assumptions C83_rest.

(** C83: what the guest said, its complaints aside, is a beginning of what was sent into the flux of the handler, up to the end of the flux, and of the end;
    once nothing is under way it is all of it. *)
Theorem C83_said : forall Hg Hr w (go_tbl : ikind -> list (option Hg)) sp g (tbl : list Hr) sid data md c,
  sid < 2^31 -> CallSpec.sendable data md -> wf data -> s_reach w go_tbl sp g tbl sid data md c ->
  (exists d, map Told (until_finish (s_pushed c)) ++ [Ended] = plain (s_said c) ++ d) /\
  (s_rest c -> plain (s_said c) = map Told (until_finish (s_pushed c)) ++ (if finished c then [Ended] else [])).
Proof.
  intros Hg Hr w go_tbl sp g tbl sid data md c S D W R. assert (Y := reach_sys w go_tbl sp g tbl sid data md S D W c R). split; [exact (sys_said _ _ _ _ _ _ _ Y)|intro A; exact (sys_said_rest _ _ _ _ _ _ _ Y A)].
Qed.
Print Assumptions C83_said.

(** C83: the guest complains once about each RequestN frame, in their order. *)
Theorem C83_complaints : forall Hg Hr w (go_tbl : ikind -> list (option Hg)) sp g (tbl : list Hr) sid data md c,
  sid < 2^31 -> CallSpec.sendable data md -> wf data -> s_reach w go_tbl sp g tbl sid data md c ->
  (exists d, further c = complaints (s_said c) ++ d) /\ (s_rest c -> further c = complaints (s_said c)).
Proof. intros Hg Hr w go_tbl sp g tbl sid data md c S D W R. eapply sys_more. exact (reach_sys w go_tbl sp g tbl sid data md S D W c R). Qed.
Print Assumptions C83_complaints.

(** C83: a subscriber that asks only once sees a beginning of the handler's flux and its end, and once nothing is under way all of it. *)
Theorem C83_once : forall Hg Hr w (go_tbl : ikind -> list (option Hg)) sp g (tbl : list Hr) sid data md c,
  sid < 2^31 -> CallSpec.sendable data md -> wf data -> s_reach w go_tbl sp g tbl sid data md c -> further c = [] ->
  (exists d, expected g (map as_call (until_finish (s_pushed c)) ++ [FComplete]) = s_seen c ++ d) /\
  (s_rest c -> s_undisturbed c -> s_seen c = expected g (map as_call (until_finish (s_pushed c)) ++ (if finished c then [FComplete] else []))).
Proof.
  intros Hg Hr w go_tbl sp g tbl sid data md c S D W R F. assert (Y := reach_sys w go_tbl sp g tbl sid data md S D W c R). split; [exact (once_seen _ _ _ _ _ _ _ Y F)|intros A U; exact (once_rest _ _ _ _ _ _ _ Y F A U)].
Qed.
Print Assumptions C83_once.
(** What follows the end in the flux is not seen; nor is what follows an error, though the guest sends it. *)
Example C83_once_example : exists c, ex_reach ex_all ex_md c /\ s_rest c /\ s_undisturbed c /\ further c = [] /\ s_runs c = [(7%nat, [1; 2], ex_md)] /\
  s_pushed c = [Item ([10], [3]); Finish; Item ([12], [3])] /\ s_seen c = [VNext ([10], [3]); VComplete].
Proof.
  reached ex_all ex_md (ex_call ++ ex_open ++ ex_item [10] ++ [SPush 0 Finish; SPush 0 (Item ([12], [3])); STask 0] ++ ex_taken ++ ex_ended).
  split; [resting|]. split; [untouched|]. repeat split.
Qed.
Example C83_once_error_example : exists c, ex_reach ex_all ex_md c /\ s_rest c /\ s_undisturbed c /\ further c = [] /\ finished c = true /\
  s_said c = [Told (Problem [33]); Told (Item ([12], [3])); Ended] /\ s_seen c = [VError [33]].
Proof.
  reached ex_all ex_md (ex_call ++ ex_open ++ [SPush 0 (Problem [33]); SPush 0 (Item ([12], [3])); SDrop 0; STask 0; STask 0; STask 0] ++ ex_failed ++ [SRecv; SRecv]).
  split; [resting|]. split; [untouched|]. repeat split.
Qed.

(** C83: a subscriber that asks again sees, in place of the rest of the items, an error. *)
Theorem C83_again : forall Hg Hr w (go_tbl : ikind -> list (option Hg)) sp g (tbl : list Hr) sid data md c items n ns,
  sid < 2^31 -> CallSpec.sendable data md -> wf data -> s_reach w go_tbl sp g tbl sid data md c ->
  s_pushed c = map Item items -> finished c = false -> further c = n :: ns -> s_rest c -> s_undisturbed c ->
  exists k, s_seen c = (if k_next g then map VNext (firstn k items) else []) ++ (if k_error g then [VError (if n =? 0 then RustCallModel.invalid_n else RustCallModel.missing_id)] else []).
Proof. intros Hg Hr w go_tbl sp g tbl sid data md c items n ns S D W R P F N A U. eapply (again_rest sp g tbl sid data md c items n ns); try eassumption. exact (reach_sys w go_tbl sp g tbl sid data md S D W c R). Qed.
Print Assumptions C83_again.
(** Refuted: that a subscriber that asks for an item, gets it and asks for another gets it. *)
Theorem C83_again_refuted : exists c, ex_reach ex_hand ex_md c /\ s_rest c /\ s_undisturbed c /\ finished c = false /\ further c = [1] /\
  s_pushed c = [Item ([10], [3]); Item ([11], [3])] /\ s_seen c = [VNext ([10], [3]); VError RustCallModel.missing_id].
Proof.
  reached ex_hand ex_md (ex_subscribed ++ ex_ask 1 ++ ex_open ++ ex_item [10] ++ ex_last ++ ex_ask 1 ++ [SGive] ++ ex_item [11] ++ ex_failed ++ [SRecv; SRecv]).
  split; [resting|]. split; [untouched|]. repeat split.
Qed.
Print Assumptions C83_again_refuted.

(** C83: the handler is the one at the index in front of the metadata; it runs at most once, with the payload of the call; and it has run if the request was sent
    and nothing is under way.  A guest without such a handler says so, and ends the stream. *)
Theorem C83_handler : forall Hg Hr w (go_tbl : ikind -> list (option Hg)) sp g (tbl : list Hr) sid data md c,
  sid < 2^31 -> CallSpec.sendable data md -> wf data -> s_reach w go_tbl sp g tbl sid data md c ->
  match nth_error tbl (N.to_nat (number4 md)) with
  | Some h => (s_runs c = [] \/ s_runs c = [(h, data, md)]) /\ (s_rest c -> s_opened c -> s_runs c = [(h, data, md)])
  | None => s_runs c = [] /\ (s_pushed c = [] \/ s_pushed c = [Problem RustCallModel.no_handler]) /\ (s_rest c -> s_opened c -> s_pushed c = [Problem RustCallModel.no_handler] /\ finished c = true)
  end.
Proof.
  intros Hg Hr w go_tbl sp g tbl sid data md c S D W R. assert (Y := reach_sys w go_tbl sp g tbl sid data md S D W c R). destruct (sys_runs _ _ _ _ _ _ _ Y) as (A & _ & B). assert (P := refused_pushed _ _ _ _ _ _ _ Y). unfold pick, ran, pick in *. destruct (nth_error tbl (N.to_nat (number4 md))) as [h|].
  - split; [exact A|]. intros E F. apply (B E F).
  - split; [exact A|]. split; [exact (P eq_refl)|]. intros E F. destruct (B E F) as (_ & _ & Z). destruct (Z eq_refl) as [Z1 Z2]. split; [exact Z1|]. unfold finished. rewrite Z2. reflexivity.
Qed.
Print Assumptions C83_handler.

(** C83: a call that names no handler brings its subscriber, if it asks once, one error and nothing else. *)
Theorem C83_refused : forall Hg Hr w (go_tbl : ikind -> list (option Hg)) sp g (tbl : list Hr) sid data md c,
  sid < 2^31 -> CallSpec.sendable data md -> wf data -> s_reach w go_tbl sp g tbl sid data md c -> nth_error tbl (N.to_nat (number4 md)) = None -> further c = [] ->
  let owed := if k_error g then [VError RustCallModel.no_handler] else [] in
  (s_rest c -> s_opened c -> s_undisturbed c -> s_seen c = owed) /\ exists d, owed = s_seen c ++ d.
Proof.
  intros Hg Hr w go_tbl sp g tbl sid data md c S D W R K F owed. assert (Y := reach_sys w go_tbl sp g tbl sid data md S D W c R). assert (B := C83_handler _ _ _ _ _ _ _ _ _ _ _ S D W R). rewrite K in B. destruct B as (_ & B & C). split.
  - intros A O U. rewrite (once_rest _ _ _ _ _ _ _ Y F A U). destruct (C A O) as [-> ->]. unfold owed, expected. cbn [until_finish map as_call app upto closes flat_map delivers]. apply app_nil_r.
  - destruct (once_seen _ _ _ _ _ _ _ Y F) as [d E]. destruct B as [B|B]; rewrite B in E.
    + assert (P := refused_fresh _ _ _ _ _ _ _ Y K B). destruct (sys_more _ _ _ _ _ _ _ Y) as [[f M] _]. rewrite F in M. symmetry in M. apply app_eq_nil in M. rewrite (plain_all _ (proj1 M)) in P. destruct (sys_seen _ _ _ _ _ _ _ Y) as [e Q]. rewrite P in Q. symmetry in Q. apply app_eq_nil in Q. rewrite (proj1 Q). exists owed. reflexivity.
    + unfold expected in E. cbn [until_finish map as_call app upto closes flat_map delivers] in E. rewrite app_nil_r in E. exists d. exact E.
Qed.
Print Assumptions C83_refused.
Example C83_refused_example : exists c, ex_reach ex_all ex_none c /\ nth_error ex_tbl (N.to_nat (number4 ex_none)) = None /\ s_rest c /\ s_opened c /\ s_undisturbed c /\ further c = [] /\
  s_runs c = [] /\ s_seen c = [VError RustCallModel.no_handler].
Proof.
  reached ex_all ex_none (ex_call ++ ex_open ++ [STask 0; STask 0] ++ ex_failed ++ [SRecv]).
  split; [reflexivity|]. split; [resting|]. split; [eexists; vm_compute; auto 10|]. split; [untouched|]. repeat split.
Qed.

(** C83: metadata too short to hold an index stops the guest: no handler runs, nothing is said by a handler and nothing is sent into a flux, and the task that
    took the request has no next step. *)
Theorem C83_short : forall Hg Hr w (go_tbl : ikind -> list (option Hg)) sp g (tbl : list Hr) sid data md c,
  sid < 2^31 -> CallSpec.sendable data md -> wf data -> s_reach w go_tbl sp g tbl sid data md c -> len md < 4 ->
  s_runs c = [] /\ (forall j, s_move w go_tbl sp g tbl sid data md c (STask j) = None) /\ (s_rest c -> ~ s_opened c).
Proof.
  intros Hg Hr w go_tbl sp g tbl sid data md c S D W R L. assert (Y := reach_sys w go_tbl sp g tbl sid data md S D W c R). destruct (sys_runs _ _ _ _ _ _ _ Y) as (_ & A & B). split; [exact (A L)|]. split.
  - intro j. exact (short_stuck w go_tbl sp g tbl sid data md c j Y L).
  - intros E F. destruct (B E F). lia.
Qed.
Print Assumptions C83_short.
Example C83_short_example : exists c, ex_reach ex_all [0; 0; 1] c /\ s_tasks c = [Fresh [1; 2] [0; 0; 1]].
Proof. reached ex_all [0; 0; 1] (ex_call ++ [SGive]). reflexivity. Qed.

(** Refuted: that the subscriber sees no more items than it asked for. *)
Theorem C83_credit_refuted : exists c, ex_reach ex_hand ex_md c /\ s_rest c /\ s_undisturbed c /\ further c = [] /\
  map (fun f => match f with FramesModel.FRequest r => rf_initial_n r | _ => 0 end) (psent (s_ptr c)) = [1] /\ s_seen c = [VNext ([10], [3]); VNext ([11], [3])].
Proof.
  reached ex_hand ex_md (ex_subscribed ++ ex_ask 1 ++ ex_open ++ ex_item [10] ++ ex_item [11] ++ ex_last ++ ex_taken).
  split; [resting|]. split; [untouched|]. repeat split.
Qed.
Print Assumptions C83_credit_refuted.

(** Refuted: that the guest says nothing more on a stream once it has been given the Cancel frame. *)
Theorem C83_cancel_refuted : exists c, ex_reach ex_all ex_md c /\ s_up c = [] /\ In (PSent (FramesModel.FCancel 4)) (s_ptr c) /\ s_said c = [] /\
  match s_moves Host ex_go true ex_all ex_tbl 4 [1; 2] ex_md c [SPush 0 (Item ([10], [3])); STask 0] with Some c' => s_said c' = [Told (Item ([10], [3]))] | None => False end.
Proof.
  reached ex_all ex_md (ex_call ++ ex_open ++ SCall 1 FCancel :: repeat (SStep 1) 3 ++ [SGive]).
  split; [reflexivity|]. split; [vm_compute; auto 10|]. split; [reflexivity|]. vm_compute. reflexivity.
Qed.
Print Assumptions C83_cancel_refuted.
