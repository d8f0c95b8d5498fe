(** C84: what a Rust guest reads of a stream that a Go peer serves; each theorem with its assumptions and an example. *)
From Coq Require Import List NArith ZArith Lia Bool.
From Verif Require Import Base FramesModel FramesSpec InvokeModel MonoModel FluxModel FluxSpec SliceModel SliceSpec SliceProofs ProxyModel ProxySpec DispatchModel DispatchSpec ResponderModel ResponderSpec.
From Verif Require Import RustFramesModel StreamModel StreamSpec StreamWire RustStreamModel RustAskModel RustAskSpec RustAskProofs.
From Verif Require CallSpec RustCallModel.
Import ListNotations.
Open Scope N_scope.

(** A host with a handler numbered 0; a request that names it and one that names number 1. *)
Definition ex_table (k : ikind) : list (option nat) := match k with RS => [Some 7%nat] | _ => [] end.
Definition ex_md : bytes := [0; 0; 0; 0; 0; 0; 0; 9].
Definition ex_none : bytes := [0; 0; 0; 1; 0; 0; 0; 9].
Definition ex_run (md : bytes) := q_run Host ex_table true 4 [1; 2] md (q_create 1).
Definition ex_reach (md : bytes) := q_reach Host ex_table true 4 [1; 2] md.
(** The call; the handler's flux is subscribed; an item followed by a frame of another stream; an error; the end. *)
Definition ex_started : list qmove := QCall :: map QGo ([MRRecv; MRAct; MRAct; MTask 0 1; MTask 0 1] ++ repeat (MRStep 1) 2 ++ [MRReturn 1] ++ repeat (MRStep 1) 4).
Definition ex_item (d : bytes) : list qmove := map QGo (MRCall 1 (FNext (d, [3])) :: repeat (MRStep 1) 4 ++ [MDown [0; 0; 0; 6; 40; 64]]).
Definition ex_failed : list qmove := map QGo (MRCall 1 (FluxModel.FError [104; 105]) :: repeat (MRStep 1) 6).
Definition ex_done : list qmove := map QGo (MRCall 1 FComplete :: repeat (MRStep 1) 6).

Lemma ex_by : forall md ms c, ex_run md ms = Some c -> ex_reach md c.
Proof. intros md ms c X. eapply q_run_reach; [apply qr_init|exact X]. Qed.
Ltac reached md ms :=
  let v := eval vm_compute in (ex_run md ms) in
  match v with Some ?c => exists c; split; [apply (ex_by md ms); vm_cast_no_check (eq_refl v)|] end.
Ltac resting := repeat (split; [reflexivity|]); first [reflexivity|intros _; reflexivity|discriminate].
Lemma ex_ok : 4 < 2^31 /\ CallSpec.sendable [1; 2] ex_md /\ few ex_table /\ names ex_table RS ex_md 7%nat /\ forall h, ~ names ex_table RS ex_none h.
Proof. split; [reflexivity|]. split; [split; [repeat constructor|split; reflexivity]|]. split; [intros []; reflexivity|]. split; [split; [discriminate|reflexivity]|]. intros h [_ N]. discriminate N. Qed.

(** C84: whatever moves come in whatever order, what the guest has read is a beginning of what is owed for the calls the handler's source made, in
    their order. *)
Theorem C84_stream : forall H w (tbl : ikind -> list (option H)) sr sid data md h c,
  sid < 2^31 -> CallSpec.sendable data md -> few tbl -> names tbl RS md h -> q_reach w tbl sr sid data md c ->
  exists d, to_read (q_emitted c) = q_read c ++ d.
Proof. intros H w tbl sr sid data md h c S D F N R. eapply named_stream; [reflexivity|]. exact (reach_sys w tbl sr sid data md S D F (Some h) N c R). Qed.
Print Assumptions C84_stream.
Example C84_stream_example : exists c, ex_reach ex_md c /\ q_read c = [GItem ([10], [3])] /\ q_emitted c = [FSubscribe; FRequest 0; FNext ([10], [3]); FNext ([11], [3]); FComplete].
Proof. reached ex_md (ex_started ++ ex_item [10] ++ ex_item [11] ++ ex_done ++ [QGive; QGive; QGive; QRead]). split; reflexivity. Qed.

(** C84: once nothing is under way and there is nothing to read, a guest that has kept the receiver has read all of it. *)
Theorem C84_rest : forall H w (tbl : ikind -> list (option H)) sr sid data md h c,
  sid < 2^31 -> CallSpec.sendable data md -> few tbl -> names tbl RS md h -> q_reach w tbl sr sid data md c ->
  q_rest c -> q_called c = true -> q_open c = true -> q_read c = to_read (q_emitted c).
Proof. intros H w tbl sr sid data md h c S D F N R A Ca Op. eapply named_rest; [reflexivity| |exact A|exact Ca|exact Op]. exact (reach_sys w tbl sr sid data md S D F (Some h) N c R). Qed.
Print Assumptions C84_rest.
Example C84_rest_example : exists c, ex_reach ex_md c /\ q_rest c /\ q_called c = true /\ q_open c = true /\ q_read c = [GItem ([10], [3]); GProblem [104; 105]; GEnd].
Proof. reached ex_md (ex_started ++ ex_item [10] ++ ex_failed ++ [QGive; QGive; QGive; QRead; QRead; QRead]). split; [resting|]. repeat split. Qed.

(** C84: the named handler runs at most once, with the payload of the call and no credit; and exactly once when the call was made and nothing is under
    way. *)
Theorem C84_runs : forall H w (tbl : ikind -> list (option H)) sr sid data md h c,
  sid < 2^31 -> CallSpec.sendable data md -> few tbl -> names tbl RS md h -> q_reach w tbl sr sid data md c ->
  Forall (eq (h, data, handler_metadata w RS md, 0)) (q_runs c) /\ (length (q_runs c) <= 1)%nat /\ (q_rest c -> q_called c = true -> length (q_runs c) = 1%nat).
Proof. intros H w tbl sr sid data md h c S D F N R. eapply named_runs; [exact S|reflexivity|]. exact (reach_sys w tbl sr sid data md S D F (Some h) N c R). Qed.
Print Assumptions C84_runs.
Example C84_runs_example : exists c, ex_reach ex_md c /\ q_rest c /\ q_called c = true /\ q_runs c = [(7%nat, [1; 2], ex_md, 0)].
Proof. reached ex_md ex_started. split; [resting|]. split; reflexivity. Qed.

(** C84: a call that names no handler runs none, and its caller reads one error and the end. *)
Theorem C84_refused : forall H w (tbl : ikind -> list (option H)) sr sid data md c,
  sid < 2^31 -> CallSpec.sendable data md -> few tbl -> (forall h, ~ names tbl RS md h) -> q_reach w tbl sr sid data md c ->
  let owed := [GProblem (if len md <? 8 then invalid_metadata else not_found); GEnd] in
  q_runs c = [] /\ (exists d, owed = q_read c ++ d) /\ (q_rest c -> q_called c = true -> q_open c = true -> q_read c = owed).
Proof.
  intros H w tbl sr sid data md c S D F N R. assert (Y := reach_sys w tbl sr sid data md S D F None N c R). split; [eapply refused_runs; [reflexivity|exact Y]|]. eapply refused_read; [exact S|reflexivity|exact Y].
Qed.
Print Assumptions C84_refused.
Example C84_refused_example : exists c, ex_reach ex_none c /\ q_rest c /\ q_called c = true /\ q_open c = true /\ q_read c = [GProblem not_found; GEnd].
Proof. reached ex_none (QCall :: map QGo [MRRecv; MRAct; MTask 0 1] ++ [QGive; QRead; QRead]). split; [resting|]. repeat split. Qed.

(** C84: the guest never grants credit: whatever it does, the handler is run for 0 items, and nothing it sends later asks for more. *)
Theorem C84_no_credit : forall H w (tbl : ikind -> list (option H)) sr sid data md c,
  sid < 2^31 -> CallSpec.sendable data md -> few tbl -> q_reach w tbl sr sid data md c ->
  Forall (fun x => snd x = 0) (q_runs c) /\ Forall (fun n => n = 0) (q_credit c).
Proof. intros H w tbl sr sid data md c S D F R. destruct (verdict_ex sid md S tbl) as [K V]. exact (sys_credit w sid data md S K c (reach_sys w tbl sr sid data md S D F K V c R)). Qed.
Print Assumptions C84_no_credit.
Example C84_no_credit_example : exists c, ex_reach ex_md c /\ q_runs c = [(7%nat, [1; 2], ex_md, 0)] /\ q_emitted c = [FSubscribe; FRequest 0].
Proof. reached ex_md ex_started. split; reflexivity. Qed.

(** C84: a source that hands out a slice on demand (slice.go) and is asked for 0 items hands out none, and signals its end only if the slice is empty. *)
Theorem C84_slice : forall T E (g : fcfg) nested values st vs (tr : list (fevent T E)), SliceModel.sreach g false nested values st vs [SI FUser] tr ->
  Forall (fun e => match e with VReqSrc n => n = 0%Z | _ => True end) tr ->
  handed tr = [] /\ signalled tr = asked tr && (match values with [] => true | _ => false end).
Proof.
  intros T E g nested values st vs tr R F. destruct (slice_settled_proof g false nested (or_introl eq_refl) values st vs tr R) as [A B].
  assert (Z : requested tr = 0%Z).
  { clear - F. unfold requested. induction F as [|e l Fe Fl IH]; [reflexivity|]. destruct e; cbn [flat_map app]; try exact IH. subst n. cbn [fold_right]. rewrite IH. reflexivity. }
  rewrite Z in A, B. split; [rewrite A; reflexivity|]. rewrite B. f_equal. destruct values; reflexivity.
Qed.
Print Assumptions C84_slice.
Example C84_slice_example : exists st vs tr, SliceModel.sreach (mkF true true true false false true) false true [5; 6]%nat st vs [SI FUser] tr /\
  asked tr = true /\ Forall (fun e => match (e : fevent nat nat) with VReqSrc n => n = 0%Z | _ => True end) tr /\ signalled tr = false.
Proof.
  destruct (@drive nat nat (mkF true true true false false true) false true 100 [(0, FSubscribe); (0, FRequest 0)]%nat (flux_create, [5; 6]%nat, [SI FUser], [])) as [[[st vs] stack] tr] eqn:X.
  assert (R : @s_ok nat nat (mkF true true true false false true) false true [5; 6]%nat (st, vs, stack, tr)) by (rewrite <- X; apply drive_sound, SliceModel.s_init).
  exists st, vs, tr. vm_compute in X. injection X as <- <- <- <-. split; [exact R|]. split; [reflexivity|]. split; [repeat constructor|reflexivity].
Qed.

(** C84: the guest sends one request, for no items, and after it nothing but Cancel frames, and none of those while the caller keeps the receiver. *)
Theorem C84_sent : forall H w (tbl : ikind -> list (option H)) sr sid data md c,
  sid < 2^31 -> CallSpec.sendable data md -> few tbl -> q_reach w tbl sr sid data md c ->
  (q_called c = false -> q_sent c = []) /\
  (q_called c = true -> exists k, q_sent c = FramesModel.FRequest (mkRequest FrameTypeRequestStream sid md data false false 0) :: repeat (FramesModel.FCancel sid) k /\ (q_open c = true -> k = 0%nat)).
Proof. intros H w tbl sr sid data md c S D F R. destruct (verdict_ex sid md S tbl) as [K V]. exact (sys_sent w sid data md K c (reach_sys w tbl sr sid data md S D F K V c R)). Qed.
Print Assumptions C84_sent.
Example C84_sent_example : exists c, ex_reach ex_md c /\ q_open c = false /\ tl (q_sent c) = [FramesModel.FCancel 4; FramesModel.FCancel 4].
Proof. reached ex_md (ex_started ++ ex_item [10] ++ ex_item [11] ++ [QDrop; QGive; QGive; QGive]). split; reflexivity. Qed.

(** C84: a Cancel frame that reaches a host where the stream is registered stops the host's dispatcher: it completes an input that there is not. *)
Theorem C84_cancel : forall H w (tbl : ikind -> list (option H)) sr sid data md c up rest,
  sid < 2^31 -> CallSpec.sendable data md -> few tbl -> q_reach w tbl sr sid data md c ->
  c_up (q_go c) = wire (FramesModel.FCancel sid) :: up -> c_rreg (q_go c) = true -> c_rtodo (q_go c) = [] -> c_rths (q_go c) = [RO FUser] :: rest ->
  exists c', q_moves w tbl sr sid data md c [QGo MRRecv; QGo MRAct] = Some c' /\ c_rths (q_go c') = [RNetDo RNComplete; RO FUser] :: rest /\ q_move w tbl sr sid data md c' (QGo (MRStep 0)) = None.
Proof. intros H w tbl sr sid data md c up rest S D F R. destruct (verdict_ex sid md S tbl) as [K V]. exact (sys_cancel w tbl sr sid data md S D K c up rest (reach_sys w tbl sr sid data md S D F K V c R)). Qed.
Print Assumptions C84_cancel.

(** Refuted: that a guest can stop reading a stream.  The item that finds the receiver gone is answered with a Cancel frame, and that stops the host. *)
Theorem C84_drop_refuted : exists c, ex_reach ex_md c /\ q_trap c = false /\ q_emitted c = [FSubscribe; FRequest 0; FNext ([10], [3])] /\
  nth_error (c_rths (q_go c)) 0 = Some [RNetDo RNComplete; RO FUser] /\ q_move Host ex_table true 4 [1; 2] ex_md c (QGo (MRStep 0)) = None.
Proof. reached ex_md (ex_started ++ ex_item [10] ++ [QDrop; QGive; QGo MRRecv; QGo MRAct]). repeat split. Qed.
Print Assumptions C84_drop_refuted.

(** C84: the guest panics only if its receiver was dropped and the handler's source failed, and then it does nothing more. *)
Theorem C84_trap : forall H w (tbl : ikind -> list (option H)) sr sid data md h c,
  sid < 2^31 -> CallSpec.sendable data md -> few tbl -> names tbl RS md h -> q_reach w tbl sr sid data md c -> q_trap c = true ->
  (q_open c = false /\ exists e, In (FluxModel.FError e) (q_emitted c)) /\ forall m, (forall m', m <> QGo m') -> q_move w tbl sr sid data md c m = None.
Proof.
  intros H w tbl sr sid data md h c S D F N R T. split; [eapply named_trap; [reflexivity| |exact T]; exact (reach_sys w tbl sr sid data md S D F (Some h) N c R)|].
  intros m Nm. destruct m as [ | | | |m]; try (cbn [q_move]; rewrite T; reflexivity). exfalso. exact (Nm m eq_refl).
Qed.
Print Assumptions C84_trap.

(** Refuted: that it never does.  An error that finds the receiver gone is unwrapped. *)
Theorem C84_trap_refuted : exists c, ex_reach ex_md c /\ q_trap c = true /\ q_open c = false /\ q_emitted c = [FSubscribe; FRequest 0; FluxModel.FError [104; 105]].
Proof. reached ex_md (ex_started ++ ex_failed ++ [QDrop; QGive]). repeat split. Qed.
Print Assumptions C84_trap_refuted.

(** Refuted: that a failure of the handler is always read.  Error text that is not UTF-8 makes a frame the guest cannot decode, and the caller waits for
    ever: the executions above exclude it. *)
Theorem C84_text_refuted : exists c, q_moves Host ex_table true 4 [1; 2] ex_md (q_create 1) (ex_started ++ map QGo (MRCall 1 (FluxModel.FError [255]) :: repeat (MRStep 1) 6) ++ [QGive]) = Some c /\
  q_emitted c = [FSubscribe; FRequest 0; FluxModel.FError [255]] /\ c_up (q_go c) = [] /\ c_down (q_go c) = [] /\ c_rtodo (q_go c) = [] /\ c_tasks (q_go c) = [] /\ idle (c_rths (q_go c)) = true /\
  q_read c = [] /\ q_reg c = true /\ q_move Host ex_table true 4 [1; 2] ex_md c QRead = None.
Proof.
  let v := eval vm_compute in (q_moves Host ex_table true 4 [1; 2] ex_md (q_create 1) (ex_started ++ map QGo (MRCall 1 (FluxModel.FError [255]) :: repeat (MRStep 1) 6) ++ [QGive])) in
  match v with Some ?c => exists c; split; [vm_cast_no_check (eq_refl v)|] end. repeat split.
Qed.
Print Assumptions C84_text_refuted.
