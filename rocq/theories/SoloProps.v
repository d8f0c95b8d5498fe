(** C70: a request/response call in any company. *)
From Coq Require Import List NArith Bool.
From Verif Require Import Base FramesModel FramesSpec InvokeModel MonoModel ProxyModel DispatchModel DispatchSpec CallModel CallSpec.
From Verif Require StreamModel StreamSpec.
From Verif Require Import SoloModel SoloSpec SoloProofs.
Import ListNotations.

(** Whatever other streams do, the caller sees nothing or exactly one outcome: that of the handler run, or the refusal if the call names none. *)
Theorem C70_outcome : forall {H} wp wr (tp tr : ikind -> list (option H)) sid data md,
  DispatchSpec.few tr -> (sid < 2^31)%N -> sendable data md ->
  forall c, reach wp wr tp tr sid data md c -> results c = [] \/ exists o, results c = [o] /\ outcome_for wr tr sid data md c o.
Proof. intros H wp wr tp tr sid data md F S N c R. eapply results_of; try eassumption. eapply reach_inv; eassumption. Qed.
Print Assumptions C70_outcome.

(** At most one handler is run for the call, the one it names, with its data and metadata. *)
Theorem C70_run : forall {H} wp wr (tp tr : ikind -> list (option H)) sid data md,
  DispatchSpec.few tr -> (sid < 2^31)%N -> sendable data md ->
  forall c, reach wp wr tp tr sid data md c -> s_runs c = [] \/ exists r, s_runs c = [r] /\ run_for wr tr sid data md r.
Proof. intros H wp wr tp tr sid data md F S N c R. eapply runs_of; try eassumption. eapply reach_inv; eassumption. Qed.
Print Assumptions C70_run.

(** Once nothing is under way, a subscribed call has had its outcome and its stream is not registered any more. *)
Theorem C70_rest : forall {H} wp wr (tp tr : ikind -> list (option H)) sid data md,
  DispatchSpec.few tr -> (sid < 2^31)%N -> sendable data md ->
  forall c, reach wp wr tp tr sid data md c -> at_rest c ->
  if s_called c then s_reg c = false /\ exists o, results c = [o] /\ outcome_for wr tr sid data md c o
  else s_reg c = false /\ results c = [] /\ s_runs c = [].
Proof. intros H wp wr tp tr sid data md F S N c R. eapply rest_of; try eassumption. eapply reach_inv; eassumption. Qed.
Print Assumptions C70_rest.

(** And that point is reached: as long as something is under way something can happen - frames of other streams stop no dispatcher - and every such
    move leaves less to do. *)
Theorem C70_ends : forall {H} wp wr (tp tr : ikind -> list (option H)) sid data md,
  DispatchSpec.few tr -> DispatchSpec.few tp -> (sid < 2^31)%N -> sendable data md ->
  forall c, reach wp wr tp tr sid data md c ->
  (at_rest c \/ exists m c', inner m = true /\ allowed sid m /\ do_move wp wr tp tr sid data md c m = Some c') /\
  (forall m c', allowed sid m -> inner m = true -> do_move wp wr tp tr sid data md c m = Some c' -> (work sid c' < work sid c)%nat).
Proof.
  intros H wp wr tp tr sid data md F F' S N c R. assert (I : inv wr tr sid data md c) by (eapply reach_inv; eassumption). split.
  - eapply progress; eassumption.
  - intros m c' A Im D. eapply (move_works wp wr tp tr); eassumption.
Qed.
Print Assumptions C70_ends.

(** ** A call from a host to a guest among a cancellation, a streaming request and an answer of other streams *)
Definition one_handler (k : ikind) : list (option nat) := match k with RR | RS => [Some 7%nat] | _ => [] end.
Definition no_handler (k : ikind) : list (option nat) := [].
Definition eight : bytes := [0; 0; 0; 0; 0; 0; 0; 0]%N.
Definition bytes_of (f : frame) : bytes := match frame_bytes f with Ret bs => bs | _ => [] end.
Definition noise1 : bytes := bytes_of (FCancel 4).
Definition noise2 : bytes := bytes_of (FRequest (mkRequest FrameTypeRequestStream 3 eight [1]%N false true 5)).
Definition noise3 : bytes := bytes_of (FPayload (mkPayload 9 [] [4; 4]%N false true true)).
Definition full : list move :=
  [SUp noise1; SSubscribe; SUser; SUp noise2; SDown noise3; SUser; SUser; SRRecv; SPRecv; SRRecv; SRRecv; SUp noise1; SRAct; STask 0%nat; SDown noise3;
   SConclude 0%nat (inl ([42]%N, [])); SDown noise1; SPRecv; SPRecv; SPAct; SPAct; SPAct; SPRecv; SRRecv].
Lemma moves_reach : forall {H} wp wr (tp tr : ikind -> list (option H)) sid data md ms c c',
  Forall (allowed sid) ms -> reach wp wr tp tr sid data md c -> do_moves wp wr tp tr sid data md c ms = Some c' -> reach wp wr tp tr sid data md c'.
Proof.
  intros H wp wr tp tr sid data md ms. induction ms as [|m ms IH]; intros c c' A R S; cbn [do_moves] in S; [injection S as <-; exact R|].
  inversion A as [|? ? Am As]; subst. destruct (do_move wp wr tp tr sid data md c m) as [c1|] eqn:E; [|discriminate S]. exact (IH c1 c' As (so_move _ _ _ _ _ _ _ c m c1 R Am E) S).
Qed.
Example C70_example : exists c, reach Host Guest no_handler one_handler 1 [5]%N eight c /\ at_rest c /\ s_called c = true /\
  results c = [inl ([42]%N, [])] /\ map (@r_handler nat) (s_runs c) = [7%nat].
Proof.
  let v := eval vm_compute in (do_moves Host Guest no_handler one_handler 1 [5]%N eight solo_create full) in
  match v with Some ?c => exists c; split; [apply (moves_reach Host Guest no_handler one_handler 1 [5]%N eight full solo_create c); [|constructor|vm_cast_no_check (eq_refl v)]|] end.
  - assert (N : forall bs, In bs [noise1; noise2; noise3] -> StreamSpec.foreign 1 bs /\ wf bs).
    { intros bs [<-|[<-|[<-|[]]]]; (split; [eexists; split; [vm_compute; reflexivity|discriminate]|apply Forall_forall; intros x X; vm_compute in X; repeat (destruct X as [<-|X]; [reflexivity|]); destruct X]). }
    unfold full. repeat (apply Forall_cons; [first [exact I | apply N; cbn [In]; tauto | cbn [allowed sendable_out]; split; reflexivity]|]). apply Forall_nil.
  - split; [|split; [reflexivity|split; reflexivity]]. repeat (split; [reflexivity|]). apply Forall_cons; [discriminate|apply Forall_nil].
Qed.
Example C70_premises : DispatchSpec.few one_handler /\ DispatchSpec.few no_handler /\ sendable [5]%N eight.
Proof. split; [intros []; reflexivity|]. split; [intros []; reflexivity|]. split; [apply Forall_forall; intros x X; cbn [In eight] in X; repeat (destruct X as [<-|X]; [reflexivity|]); destruct X|]. split; reflexivity. Qed.

(** Other streams must have other ids: a frame that carries this one - the dispatchers do not ask who sent it for what - is taken for the answer, though
    no handler was run. *)
Definition forged : bytes := bytes_of (FPayload (mkPayload 1 [] [66]%N false true true)).
Theorem C70_forged_refuted : ~ (forall ms c, do_moves Host Guest no_handler one_handler 1 [5]%N eight solo_create ms = Some c ->
  results c = [] \/ exists o, results c = [o] /\ outcome_for Guest one_handler 1 [5]%N eight c o).
Proof.
  intro X. specialize (X [SSubscribe; SUser; SUser; SUser; SDown forged; SPRecv; SPAct]).
  let v := eval vm_compute in (do_moves Host Guest no_handler one_handler 1 [5]%N eight solo_create [SSubscribe; SUser; SUser; SUser; SDown forged; SPRecv; SPAct]) in
  match v with Some ?c => specialize (X c); assert (E : do_moves Host Guest no_handler one_handler 1 [5]%N eight solo_create [SSubscribe; SUser; SUser; SUser; SDown forged; SPRecv; SPAct] = Some c) by (vm_cast_no_check (eq_refl v)) end.
  destruct (X E) as [Y|(o & Y & [(r & Z & _)|(_ & Z & W)])]; [discriminate Y|discriminate Z|]. injection Y as <-. discriminate W.
Qed.
Print Assumptions C70_forged_refuted.
