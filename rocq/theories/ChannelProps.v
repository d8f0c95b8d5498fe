(** C56: a channel brings the caller what the handler emits and the handler what the caller emits; each theorem with its assumptions and an example. *)
From Coq Require Import List NArith ZArith Lia Bool.
From Verif Require Import Base FramesModel FramesSpec InvokeModel MonoModel FluxModel FluxSpec ProxyModel ProxySpec DispatchModel DispatchSpec ResponderModel ResponderSpec.
From Verif Require Import StreamModel StreamSpec StreamProofs ChannelModel ChannelSpec ChannelWire ChannelProofs.
From Verif Require CallSpec CallProofs.
Import ListNotations.
Open Scope N_scope.

(** A handler with number 0; a request that names it and one that names number 1; subscribers that ask for everything and ones that ask by hand. *)
Definition ex_table (k : ikind) : list (option nat) := match k with RC => [Some 7%nat] | _ => [] end.
Definition ex_md : bytes := [0; 0; 0; 0; 0; 0; 0; 9].
Definition ex_none : bytes := [0; 0; 0; 1; 0; 0; 0; 9].
Definition ex_all : fcfg := mkF true true true false false false.
Definition ex_hand : fcfg := mkF true true true false false true.
Definition ex_do (g gin : fcfg) (md : bytes) := do_cmove Host Guest (fun _ => []) ex_table true true g gin 5 [1; 2] md.
Definition ex_raw (g gin : fcfg) (md : bytes) := raw_cmoves Host Guest (fun _ => []) ex_table true true g gin 5 [1; 2] md.
Definition ex_run (g gin : fcfg) (md : bytes) := run_cmoves Host Guest (fun _ => []) ex_table true true g gin 5 [1; 2] md (channel_create 1 1).
Definition ex_reach (g gin : fcfg) (md : bytes) := creach Host Guest (fun _ => []) ex_table true true g gin 5 [1; 2] md.
(** The call; the handler is started and subscribes its input; it returns its flux; the caller's flux is asked for items. *)
Definition ex_steps (n : nat) : list cmove := repeat (XPStep 1) n.
Definition ex_rsteps (n : nat) : list cmove := repeat (XRStep 1) n.
Definition ex_call : list cmove := XPCall 1 (QP (PI (FDo FSubscribe))) :: ex_steps 9 ++ [XPReturn 1; XPStep 1].
Definition ex_start : list cmove := [XRRecv; XRAct; XRAct; XTask 0 1; XTask 0 1].
Definition ex_read : list cmove := XRCall 1 (RI (FDo FSubscribe)) :: ex_rsteps 8.
Definition ex_return : list cmove := XRReturn 1 :: ex_rsteps 2 ++ [XRReturn 1] ++ ex_rsteps 4.
Definition ex_asked : list cmove := [XPRecv; XPAct; XPTask 0 1] ++ ex_steps 2.
Definition ex_up : list cmove := ex_call ++ ex_start ++ ex_read ++ ex_return ++ ex_asked.
(** Items and ends both ways; they are received. *)
Definition ex_in (d : bytes) : list cmove := XPCall 1 (QI (RO (FDo (FNext (d, [3]))))) :: ex_steps 4 ++ [XUp [0; 0; 0; 6; 40; 64]].
Definition ex_in_end : list cmove := XPCall 1 (QI (RO (FDo FComplete))) :: ex_steps 6.
Definition ex_out (d : bytes) : list cmove := XRCall 1 (RO (FDo (FNext (d, [3])))) :: ex_rsteps 4 ++ [XDown [0; 0; 0; 6; 40; 64]].
Definition ex_out_end : list cmove := XRCall 1 (RO (FDo FComplete)) :: ex_rsteps 6.
Definition ex_rtaken : list cmove := [XRRecv; XRAct] ++ repeat (XRStep 0) 4 ++ [XRReturn 0; XRStep 0; XRRecv].
Definition ex_ptaken : list cmove := [XPRecv; XPAct] ++ repeat (XPStep 0) 4 ++ [XPReturn 0; XPStep 0; XPRecv].
Definition ex_rended : list cmove := [XRRecv; XRAct] ++ repeat (XRStep 0) 4 ++ [XRReturn 0] ++ repeat (XRStep 0) 3 ++ [XRAct].
Definition ex_pended : list cmove := [XPRecv; XPAct] ++ repeat (XPStep 0) 4 ++ [XPReturn 0] ++ repeat (XPStep 0) 4 ++ [XPAct].
Definition ex_both : list cmove := ex_up ++ ex_in [10] ++ ex_out [20] ++ ex_in [11] ++ ex_in_end ++ ex_out_end.

Lemma ex_by : forall g gin md ms c, ex_run g gin md ms = Some c -> ex_reach g gin md c.
Proof. intros g gin md ms c X. eapply run_creach; [apply x_init|exact X]. Qed.
Ltac reached g gin md ms :=
  let v := eval vm_compute in (ex_run g gin md ms) in
  match v with Some ?c => exists c; split; [apply (ex_by g gin md ms); vm_cast_no_check (eq_refl v)|] end.
Ltac absent := let Z := fresh in intro Z; repeat (destruct Z as [Z|Z]; [discriminate Z|]); exact Z.
Ltac resting := repeat split; eexists; reflexivity.

Lemma ex_ok : 5 < 2^31 /\ CallSpec.sendable [1; 2] ex_md /\ few ex_table /\ names ex_table RC ex_md 7%nat /\ forall h, ~ names ex_table RC ex_none h.
Proof. split; [reflexivity|]. split; [split; [repeat constructor|split; reflexivity]|]. split; [intros []; reflexivity|]. split; [split; [discriminate|reflexivity]|]. intros h [_ N]. discriminate N. Qed.

(** C56: whatever moves come in whatever order, as long as the handler has not cancelled its input, what the caller's subscriber has seen is a
    beginning of what is owed for the calls made on the handler's flux; and if it has, of what is owed for some of the first of these calls and an end. *)
Theorem C56_down : forall H wp wr (tp tr : ikind -> list (option H)) sp sr g gin sid data md h c,
  sid < 2^31 -> CallSpec.sendable data md -> few tr -> names tr RC md h -> creach wp wr tp tr sp sr g gin sid data md c ->
  (~ cancels_it (reader c) -> exists d, expected g (out_emitted c) = out_seen c ++ d) /\
  exists k m d, out_emitted c = k ++ m /\ expected g (k ++ [FComplete]) = out_seen c ++ d.
Proof.
  intros H wp wr tp tr sp sr g gin sid data md h c S D F N R. assert (Y := reach_csys wp wr tp tr sp sr g gin sid data md S D F (Some h) N c R). split; [exact (down_plain wr g gin sid data md (Some h) h c eq_refl Y)|].
  destruct (down_any wr g gin sid data md (Some h) h c eq_refl Y) as (k & [m M] & [d E]). exists k, m, d. split; assumption.
Qed.
Print Assumptions C56_down.
Example C56_down_example : exists c, ex_reach ex_all ex_all ex_md c /\ ~ cancels_it (reader c) /\ out_seen c = [VNext ([20], [3])] /\ out_emitted c = [FSubscribe; FRequest 2147483647; FNext ([20], [3]); FComplete].
Proof. reached ex_all ex_all ex_md (ex_both ++ ex_ptaken). split; [absent|]. split; reflexivity. Qed.

(** C56: the same the other way: what the handler sees of its input is a beginning of what is owed for the calls made on the caller's flux, as long as
    the caller has not cancelled. *)
Theorem C56_up : forall H wp wr (tp tr : ikind -> list (option H)) sp sr g gin sid data md c,
  sid < 2^31 -> CallSpec.sendable data md -> few tr -> creach wp wr tp tr sp sr g gin sid data md c ->
  (~ cancels_it (caller c) -> exists d, expected gin (in_emitted c) = in_seen c ++ d) /\
  exists k m d, in_emitted c = k ++ m /\ expected gin (k ++ [FComplete]) = in_seen c ++ d.
Proof.
  intros H wp wr tp tr sp sr g gin sid data md c S D F R. destruct (cverdict_ex sid md S tr) as [K V]. assert (Y := reach_csys wp wr tp tr sp sr g gin sid data md S D F K V c R). split; [exact (up_plain wr g gin sid data md K c Y)|].
  destruct (up_any wr g gin sid data md K c Y) as (k & [m M] & [d E]). exists k, m, d. split; assumption.
Qed.
Print Assumptions C56_up.
Example C56_up_example : exists c, ex_reach ex_all ex_all ex_md c /\ ~ cancels_it (caller c) /\ in_seen c = [VNext ([10], [3])] /\
  in_emitted c = [FSubscribe; FRequest 2147483647; FNext ([10], [3]); FNext ([11], [3]); FComplete].
Proof. reached ex_all ex_all ex_md (ex_both ++ ex_rtaken). split; [absent|]. split; reflexivity. Qed.

(** C56: once nothing is under way, and if neither has cancelled nor closed, both have seen all of it. *)
Theorem C56_rest : forall H wp wr (tp tr : ikind -> list (option H)) sp sr g gin sid data md h c,
  sid < 2^31 -> CallSpec.sendable data md -> few tr -> names tr RC md h -> creach wp wr tp tr sp sr g gin sid data md c ->
  crest c -> ~ cancels_it (caller c) -> ~ cancels_it (reader c) ->
  (~ closes_it (caller c) -> out_seen c = expected g (out_emitted c)) /\ (~ closes_it (reader c) -> in_seen c = expected gin (in_emitted c)).
Proof.
  intros H wp wr tp tr sp sr g gin sid data md h c S D F N R A C1 C2. assert (Y := reach_csys wp wr tp tr sp sr g gin sid data md S D F (Some h) N c R). split; intro C3.
  - exact (down_rest wr g gin sid data md (Some h) h c eq_refl Y A C2 C1 C3).
  - exact (up_rest wr g gin sid data md (Some h) c Y A C1 C2 C3).
Qed.
Print Assumptions C56_rest.
Example C56_rest_example : exists c, ex_reach ex_all ex_all ex_md c /\ crest c /\ ~ cancels_it (caller c) /\ ~ cancels_it (reader c) /\ ~ closes_it (caller c) /\ ~ closes_it (reader c) /\
  out_seen c = [VNext ([20], [3]); VComplete] /\ in_seen c = [VNext ([10], [3]); VNext ([11], [3]); VComplete].
Proof.
  reached ex_all ex_all ex_md (ex_both ++ ex_rtaken ++ ex_rtaken ++ ex_rended ++ ex_ptaken ++ ex_pended).
  split; [resting|]. do 4 (split; [absent|]). split; reflexivity.
Qed.

(** C56: the named handler runs at most once, with the payload of the call and the credit of the frame that opened it; and exactly once when that
    frame was sent and nothing is under way. *)
Theorem C56_handler : forall H wp wr (tp tr : ikind -> list (option H)) sp sr g gin sid data md h c,
  sid < 2^31 -> CallSpec.sendable data md -> few tr -> names tr RC md h -> creach wp wr tp tr sp sr g gin sid data md c ->
  Forall (fun x => exists r, In (FramesModel.FRequest r) (up_sent c) /\ x = (h, data, handler_metadata wr RC md, rf_initial_n r)) (x_runs c) /\
  (length (x_runs c) <= 1)%nat /\ (crest c -> copened c -> length (x_runs c) = 1%nat).
Proof. intros H wp wr tp tr sp sr g gin sid data md h c S D F N R. exact (chan_runs wr g gin sid data md S (Some h) h c eq_refl (reach_csys wp wr tp tr sp sr g gin sid data md S D F (Some h) N c R)). Qed.
Print Assumptions C56_handler.
Example C56_handler_example : exists c, ex_reach ex_all ex_all ex_md c /\ copened c /\ crest c /\ x_runs c = [(7%nat, [1; 2], ex_md, 2147483647)].
Proof. reached ex_all ex_all ex_md ex_up. split; [eexists; left; reflexivity|]. split; [resting|reflexivity]. Qed.

(** C56: a call that names no handler runs none; its subscriber sees one error and nothing else; the caller's flux is not asked for anything. *)
Theorem C56_refused : forall H wp wr (tp tr : ikind -> list (option H)) sp sr g gin sid data md c,
  sid < 2^31 -> CallSpec.sendable data md -> few tr -> (forall h, ~ names tr RC md h) -> creach wp wr tp tr sp sr g gin sid data md c ->
  let owed := if k_error g then [VError (if len md <? 8 then invalid_metadata else not_found)] else [] in
  x_runs c = [] /\ in_seen c = [] /\ in_arrived c = 0 /\ (exists d, owed = out_seen c ++ d) /\ (crest c -> copened c -> ~ cancels_it (caller c) -> ~ closes_it (caller c) -> out_seen c = owed).
Proof.
  intros H wp wr tp tr sp sr g gin sid data md c S D F N R. assert (Z := chan_refused wr g gin sid data md S None c eq_refl (reach_csys wp wr tp tr sp sr g gin sid data md S D F None N c R)).
  unfold expected in Z. cbn [upto closes flat_map delivers] in Z. rewrite app_nil_r in Z. exact Z.
Qed.
Print Assumptions C56_refused.
Example C56_refused_example : exists c, ex_reach ex_all ex_all ex_none c /\ copened c /\ crest c /\ ~ cancels_it (caller c) /\ ~ closes_it (caller c) /\ out_seen c = [VError not_found] /\ x_runs c = [].
Proof.
  reached ex_all ex_all ex_none (ex_call ++ [XRRecv; XRAct; XTask 0 1; XPRecv; XPAct] ++ repeat (XPStep 0) 4 ++ [XPReturn 0] ++ repeat (XPStep 0) 3 ++ [XPAct] ++ repeat (XPStep 0) 3 ++ [XPAct]). split; [eexists; left; reflexivity|]. split; [resting|]. do 2 (split; [absent|]). split; reflexivity.
Qed.

(** C56: neither side gets more credit than the other sent. *)
Theorem C56_credit : forall H wp wr (tp tr : ikind -> list (option H)) sp sr g gin sid data md c,
  sid < 2^31 -> CallSpec.sendable data md -> few tr -> creach wp wr tp tr sp sr g gin sid data md c -> out_arrived c <= out_granted c /\ in_arrived c <= in_granted c.
Proof.
  intros H wp wr tp tr sp sr g gin sid data md c S D F R. destruct (cverdict_ex sid md S tr) as [K V]. exact (chan_credit wr g gin sid data md S K c (reach_csys wp wr tp tr sp sr g gin sid data md S D F K V c R)).
Qed.
Print Assumptions C56_credit.
Definition ex_hcall (n : Z) : list cmove := XPCall 1 (QP (PI (FDo FSubscribe))) :: ex_steps 4 ++ XPCall 1 (QP (PI (FDo (FRequest n)))) :: ex_steps 6 ++ [XPReturn 1; XPStep 1].
Definition ex_ask (n : Z) : list cmove := XPCall 1 (QP (PI (FDo (FRequest n)))) :: ex_steps 5.
Definition ex_hread (n : Z) : list cmove := XRCall 1 (RI (FDo FSubscribe)) :: ex_rsteps 4 ++ XRCall 1 (RI (FDo (FRequest n))) :: ex_rsteps 5.
Definition ex_rask (n : Z) : list cmove := XRCall 1 (RI (FDo (FRequest n))) :: ex_rsteps 5.
Definition ex_hup : list cmove := ex_hcall 5 ++ ex_start ++ ex_hread 2 ++ ex_return ++ ex_asked.
Example C56_credit_example : exists c, ex_reach ex_hand ex_hand ex_md c /\ out_arrived c = 8 /\ out_granted c = 8 /\ in_arrived c = 6 /\ in_granted c = 6.
Proof. reached ex_hand ex_hand ex_md (ex_hup ++ ex_ask 3 ++ [XRRecv; XRAct; XTask 0 1; XRStep 1] ++ ex_rsteps 2 ++ ex_rask 4 ++ ex_asked). repeat split; reflexivity. Qed.

(** C56: as long as the caller has not cancelled, an item, end or error that reaches the responder finds the handler's input subscribed: its call is
    carried out. *)
Theorem C56_safe : forall H wp wr (tp tr : ikind -> list (option H)) sp sr g gin sid data md c i n stack,
  sid < 2^31 -> CallSpec.sendable data md -> few tr -> creach wp wr tp tr sp sr g gin sid data md c -> ~ cancels_it (caller c) ->
  nth_error (x_rths c) i = Some (RNetDo n :: stack) -> (forall k, n <> RNRequest k) -> exists c', do_cmove wp wr tp tr sp sr g gin sid data md c (XRStep i) = Some c'.
Proof.
  intros H wp wr tp tr sp sr g gin sid data md c i n stack S D F R C Nt Nr. destruct (cverdict_ex sid md S tr) as [K V]. assert (A := input_ready wr g gin sid data md K c i n stack (reach_csys wp wr tp tr sp sr g gin sid data md S D F K V c R) C Nt Nr).
  destruct (CallProofs.cut_some _ _ _ Nt) as (l & rest & E & _). cbn [do_cmove]. rewrite E. destruct n as [k|v| |e]; [exfalso; eapply Nr; reflexivity| | |]; cbn [rstep]; rewrite A; cbn [posts rsent flat_map]; eexists; reflexivity.
Qed.
Print Assumptions C56_safe.
Example C56_safe_example : exists c, ex_reach ex_all ex_all ex_md c /\ ~ cancels_it (caller c) /\ nth_error (x_rths c) 0 = Some [RNetDo (RNNext ([10], [3])); RO FUser].
Proof. reached ex_all ex_all ex_md (ex_both ++ [XRRecv; XRAct]). split; [absent|]. reflexivity. Qed.

(** Refuted: that without regard to what the handler does with its input the caller sees what was emitted.  The Cancel frame by which a handler stops
    its input ends the caller's stream: the caller sees an end that the handler did not emit, and not the items after it. *)
Theorem C56_down_refuted : exists c, ex_reach ex_all ex_all ex_md c /\ crest c /\ ~ cancels_it (caller c) /\ ~ closes_it (caller c) /\
  out_emitted c = [FSubscribe; FRequest 2147483647; FNext ([20], [3]); FNext ([21], [3])] /\ out_seen c = [VNext ([20], [3]); VComplete].
Proof.
  reached ex_all ex_all ex_md (ex_up ++ ex_out [20] ++ XRCall 1 (RI (FDo FluxModel.FCancel)) :: ex_rsteps 3 ++ ex_out [21] ++ ex_ptaken ++ ex_pended ++ [XPRecv; XPRecv]).
  split; [resting|]. do 2 (split; [absent|]). split; reflexivity.
Qed.
Print Assumptions C56_down_refuted.

(** Refuted: that a caller's Cancel cancels the handler's flux.  It ends the handler's input, and nothing is called on the flux. *)
Theorem C56_up_refuted : exists c, ex_reach ex_all ex_all ex_md c /\ crest c /\ cancels_it (caller c) /\ in_emitted c = [FSubscribe; FRequest 2147483647; FNext ([10], [3])] /\
  in_seen c = [VNext ([10], [3]); VComplete] /\ out_emitted c = [FSubscribe; FRequest 2147483647].
Proof.
  reached ex_all ex_all ex_md (ex_up ++ ex_in [10] ++ XPCall 1 (QP (PI (FDo FluxModel.FCancel))) :: ex_steps 3 ++ ex_rtaken ++ ex_rended).
  split; [resting|]. split; [repeat (try (left; reflexivity); right)|]. repeat split; reflexivity.
Qed.
Print Assumptions C56_up_refuted.

(** Refuted: that a caller may cancel at any time.  Before the handler has subscribed its input, the end is delivered to a nil sink. *)
Theorem C56_cancel_refuted : exists c, ex_reach ex_all ex_all ex_md c /\ nth_error (x_rths c) 0 = Some [RNetDo RNComplete; RO FUser] /\ ex_do ex_all ex_all ex_md c (XRStep 0) = None.
Proof. reached ex_all ex_all ex_md (ex_call ++ ex_start ++ XPCall 1 (QP (PI (FDo FluxModel.FCancel))) :: ex_steps 3 ++ [XRRecv; XRAct]). split; reflexivity. Qed.
Print Assumptions C56_cancel_refuted.

(** Refuted: that items need not be asked for.  One that the caller's flux emits by itself reaches the responder before the handler has subscribed its
    input, and is delivered to a nil sink. *)
Theorem C56_unasked_refuted : exists c, ex_reach ex_all ex_all ex_md c /\ exists c', ex_raw ex_all ex_all ex_md c (XPCall 1 (QI (RO (FDo (FNext ([10], [3]))))) :: ex_steps 4 ++ [XRRecv; XRAct]) = Some c' /\
  nth_error (x_rths c') 0 = Some [RNetDo (RNNext ([10], [3])); RO FUser] /\ ex_do ex_all ex_all ex_md c' (XRStep 0) = None.
Proof.
  reached ex_all ex_all ex_md (ex_call ++ ex_start).
  match goal with |- exists c', ?a = Some c' /\ _ => let v := eval vm_compute in a in match v with Some ?c => exists c; split; [vm_cast_no_check (eq_refl v)|] end end. split; reflexivity.
Qed.
Print Assumptions C56_unasked_refuted.

(** Refuted: that asking is always harmless for the caller.  The request is sent before the caller's flux is subscribed; a RequestN frame received
    in between asks a nil subscription. *)
Definition ex_run3 := run_cmoves Host Guest (fun _ => []) ex_table true true ex_all ex_all 5 [1; 2] ex_md (channel_create 2 1).
Definition ex_early : list cmove := XPCall 1 (QP (PI (FDo FSubscribe))) :: ex_steps 8 ++ ex_start ++ ex_read ++ [XPRecv; XPAct; XPTask 0 2].
Theorem C56_early_refuted : exists c, ex_reach ex_all ex_all ex_md c /\ nth_error (x_pths c) 2 = Some [QI (RO (FDo (FRequest 2147483647))); QP (PI FUser)] /\ ex_do ex_all ex_all ex_md c (XPStep 2) = None.
Proof.
  let v := eval vm_compute in (ex_run3 ex_early) in
  match v with Some ?c => exists c; split; [apply (run_creach _ _ _ _ _ _ _ _ _ _ _ ex_early (channel_create 2 1)); [apply x_init|vm_cast_no_check (eq_refl v)]|] end. split; reflexivity.
Qed.
Print Assumptions C56_early_refuted.

(** Refuted: that all credit arrives, even when neither side cancels, closes or fails.  The end of either direction unregisters the stream, and
    RequestN frames for the other direction that come later are dropped: the handler's flux is never asked for the 3 items, *)
Theorem C56_credit_refuted : exists c, ex_reach ex_hand ex_hand ex_md c /\ crest c /\ ~ cancels_it (caller c) /\ ~ cancels_it (reader c) /\ ~ closes_it (caller c) /\ ~ closes_it (reader c) /\
  in_seen c = [VNext ([10], [3]); VComplete] /\ out_seen c = [] /\ out_granted c = 8 /\ out_arrived c = 5.
Proof.
  reached ex_hand ex_hand ex_md (ex_hup ++ ex_in [10] ++ ex_in_end ++ ex_rtaken ++ ex_rended ++ ex_ask 3 ++ [XRRecv]). split; [resting|]. do 4 (split; [absent|]). repeat split; reflexivity.
Qed.
Print Assumptions C56_credit_refuted.
(** and the caller's flux is never asked for the 4 items. *)
Theorem C56_input_credit_refuted : exists c, ex_reach ex_hand ex_hand ex_md c /\ crest c /\ ~ cancels_it (caller c) /\ ~ cancels_it (reader c) /\ ~ closes_it (caller c) /\ ~ closes_it (reader c) /\
  out_seen c = [VNext ([20], [3]); VComplete] /\ in_seen c = [] /\ in_granted c = 6 /\ in_arrived c = 2.
Proof.
  reached ex_hand ex_hand ex_md (ex_hup ++ ex_out [20] ++ ex_out_end ++ ex_ptaken ++ ex_pended ++ ex_rask 4 ++ [XPRecv]). split; [resting|]. do 4 (split; [absent|]). repeat split; reflexivity.
Qed.
Print Assumptions C56_input_credit_refuted.

(** C56: at most one frame opens the channel, and it is a RequestChannel with the call's stream id, payload and metadata, neither to be continued nor
    complete: the caller's items are still to come. *)
Definition opening (f : frame) : bool := match f with FramesModel.FRequest _ => true | _ => false end.
Lemma opening_quiet : forall evs, forallb ProxyProofs.quiet evs = true -> filter opening (qsent (map EP evs)) = [].
Proof. induction evs as [|e t IH]; [reflexivity|]. cbn [forallb]. rewrite andb_true_iff. intros [A B]. destruct e; try discriminate A; exact (IH B). Qed.
Definition opens_so (r : request_frame) (st st' : pst) (evs : list qevent) : Prop :=
  filter opening (qsent evs) = [] /\ p_first st' = p_first st \/ p_first st = true /\ p_first st' = false /\ exists n, filter opening (qsent evs) = [with_n r n].
Lemma opening_shape : forall r st st' evs, ProxyProofs.pshape r st st' evs -> opens_so r st st' (map EP evs).
Proof.
  intros r st st' evs X. destruct X as [st' evs Q F _|n _|n _ F|n _ _| |]; try (left; split; reflexivity).
  - left. split; [exact (opening_quiet evs Q)|exact F].
  - right. split; [exact F|]. split; [reflexivity|]. exists n. reflexivity.
Qed.
Lemma opening_ROV : forall evs, filter opening (qsent (map EI (map ROV evs))) = [].
Proof. induction evs as [|e t IH]; [reflexivity|exact IH]. Qed.
Lemma opening_in : forall sp sid i it i' its new evs, rstep sp no_cfg sid 0 i (RO it) = Some (i', its, new, evs) -> filter opening (qsent (map EI evs)) = [].
Proof.
  intros sp sid i it i' its new evs X.
  assert (Y : (exists e f, frame_of sid e = Some f /\ evs = [ROV e; RSent f]) \/ exists evs', evs = map ROV evs').
  { destruct it as [|n|c|c|on e| | |n|n|n|sg|sg]; cbn [rstep] in X.
    5: destruct on; [destruct (frame_of sid e) as [f|] eqn:F; [injection X as <- <- <- <-; left; exists e, f; split; [exact F|reflexivity]|]|].
    all: match type of X with match ?m with _ => _ end = _ => destruct m as [[[[fl i0] nw] ev]|]; [|discriminate X] end; injection X as <- <- <- <-; right; eexists; reflexivity. }
  destruct Y as [(e & f & F & ->)|[evs' ->]]; [|apply opening_ROV]. destruct e; try discriminate F; injection F as <-; reflexivity.
Qed.
Lemma opening_kept : forall H wp wr (tp tr : ikind -> list (option H)) sp sr g gin sid data md c m c', do_cmove wp wr tp tr sp sr g gin sid data md c m = Some c' ->
  exists evs, x_ptr c' = x_ptr c ++ evs /\ opens_so (channel_request sid data md) (x_p c) (x_p c') evs.
Proof.
  intros H wp wr tp tr sp sr g gin sid data md c m c' X. destruct m as [i f|i|i| | |j i|i f|i|i| | |j i|bs|bs]; cbn [do_cmove] in X; cbv zeta in X.
  3: { destruct (CallModel.cut i (x_pths c)) as [[[l [|it stack]] rest]|]; try discriminate X. destruct (qstep _ _ _ _ _ _ _ it) as [[[[[p i'] its] new] evs]|] eqn:P; [|discriminate X].
       destruct (posts _ _); [|discriminate X]. injection X as <-. exists evs. split; [reflexivity|]. cbn [x_p put_p]. destruct it as [it|[it|it| | |n]]; cbn [qstep] in P; try discriminate P.
       - destruct (pstep _ _ _ _ _ it) as [[[[st its'] new'] evs']|] eqn:Q; [|discriminate P]. injection P as <- <- <- <- <-. exact (opening_shape _ _ _ _ (ProxyProofs.pstep_shape _ _ _ _ _ _ _ _ _ _ Q)).
       - destruct (rstep _ _ _ _ _ _) as [[[[st its'] new'] evs']|] eqn:Q; [|discriminate P]. injection P as <- <- <- <- <-. left. split; [exact (opening_in _ _ _ _ _ _ _ _ Q)|reflexivity]. }
  5: { exists [EAsk (match CallModel.cut j (x_ptasks c) with Some (_, n, _) => n | None => 0 end)]. destruct (CallModel.cut j (x_ptasks c)) as [[[a n] b]|]; [|discriminate X].
       destruct (CallModel.cut i (x_pths c)) as [[[l [|u stack]] rest]|]; try discriminate X. destruct (is_quser u); [|discriminate X]. injection X as <-. split; [reflexivity|left; split; reflexivity]. }
  all: exists []; repeat match type of X with
    | Some _ = Some _ => injection X as <-
    | None = Some _ => discriminate X
    | context [match ?m with _ => _ end] => destruct m; try discriminate X
    end; (split; [cbn; rewrite ?app_nil_r; reflexivity|left; split; reflexivity]).
Qed.
Lemma opening_one : forall H wp wr (tp tr : ikind -> list (option H)) sp sr g gin sid data md c, creach wp wr tp tr sp sr g gin sid data md c ->
  if p_first (x_p c) then filter opening (up_sent c) = [] else exists n, filter opening (up_sent c) = [with_n (channel_request sid data md) n].
Proof.
  intros H wp wr tp tr sp sr g gin sid data md c R. induction R as [n m|c m c' R IH A X]; [reflexivity|].
  destruct (opening_kept _ _ _ _ _ _ _ _ _ _ _ _ _ _ _ X) as (evs & E & S). unfold up_sent in *. rewrite E, flat_map_app, filter_app.
  destruct S as [[S ->]|(F & -> & n & S)]; unfold qsent in S; rewrite S; [rewrite app_nil_r; exact IH|]. rewrite F in IH. rewrite IH. exists n. reflexivity.
Qed.
Theorem C56_request : forall H wp wr (tp tr : ikind -> list (option H)) sp sr g gin sid data md c, creach wp wr tp tr sp sr g gin sid data md c ->
  filter opening (up_sent c) = [] \/ exists n, filter opening (up_sent c) = [FramesModel.FRequest (mkRequest 7 sid md data false false n)].
Proof.
  intros H wp wr tp tr sp sr g gin sid data md c R. assert (Y := opening_one _ _ _ _ _ _ _ _ _ _ _ _ _ R). destruct (p_first (x_p c)); [left; exact Y|right].
  destruct Y as [n Y]. eexists. exact Y.
Qed.
Print Assumptions C56_request.
Example C56_request_example : exists c, ex_reach ex_all ex_all ex_md c /\ filter opening (up_sent c) = [FramesModel.FRequest (mkRequest 7 5 ex_md [1; 2] false false 2147483647)].
Proof. reached ex_all ex_all ex_md ex_both. vm_compute. reflexivity. Qed.
