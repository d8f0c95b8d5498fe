(** C40: the frames a responder sends on a stream or channel. *)
From Coq Require Import List NArith ZArith Bool Lia.
From Verif Require Import Base FramesModel MonoModel FluxModel FluxSpec FluxProofs SliceModel SliceSpec SliceProofs ProxyModel ResponderModel ResponderSpec ResponderProofs ResponderSerial ResponderSlice ResponderExec.
Import ListNotations.

(** ** One thread *)

(** Any calls in any order, from the handler, its source, the dispatcher, or inside callbacks: at every moment the answer sent is a prefix of what the
    calls up to the first closing one call for, and all of it whenever user code runs. *)
Theorem C40_answer : forall sync gin sid initial st stack tr, rreach sync gin sid initial false st [stack] tr ->
  (exists d, answer sid (out_calls tr) = answers tr ++ d) /\
  (match stack with u :: _ => is_ruser u = true | [] => False end -> answers tr = answer sid (out_calls tr)).
Proof.
  intros sync gin sid initial st stack tr R. destruct (reach_J sync gin sid initial _ _ _ _ R _ eq_refl) as [(it & t & -> & _ & _ & A & _) _].
  split; [eexists; exact A|]. intro U. rewrite A, (wait_pend sid it (user_wait it U)), app_nil_r. reflexivity.
Qed.
Print Assumptions C40_answer.

(** That is a number of payloads followed by at most one completion or error, and nothing after it. *)
Theorem C40_well_formed : forall sid l, stream_ok (answer sid l) = true.
Proof.
  intros sid l. unfold answer. induction l as [|c l IH]; [reflexivity|]. cbn [upto]. destruct (closes c) eqn:C.
  - destruct c; try discriminate C; reflexivity.
  - cbn [flat_map]. destruct c; try discriminate C; try exact IH. destruct v as [d m].
    cbn [owed app]. destruct (flat_map (owed sid) (upto l)) as [|f fs] eqn:X; [reflexivity|exact IH].
Qed.
Print Assumptions C40_well_formed.

Definition input_on : fcfg := mkF true true true false false false.
Definition ex_start (n : nat) : rconf := (responder_create, repeat [RO FUser] n, []).
Definition item (n : N) : pay := ([n], [n + 1])%N.
(** A channel: the handler subscribes its input inside its source; two items and a completion, then an item too many and an error. *)
Definition ex_moves : list rmove :=
  [WCall 0 RStart; WGo 0; WCall 0 (RI (FDo FSubscribe)); WGo 0; WCall 0 (RO (FDo (FOnSubscribe true true))); WGo 0;
   WCall 0 (RNetDo (RNNext (item 70))); WGo 0; WCall 0 (RO (FDo (FNext (item 71)))); WGo 0; WRet 0; WGo 0;
   WCall 0 (RO (FDo (FNext (item 80)))); WGo 0; WCall 0 (RO (FDo FComplete)); WGo 0; WCall 0 (RO (FDo (FNext (item 90)))); WGo 0;
   WCall 0 (RO (FDo (FluxModel.FError [1]%N))); WGo 0; WRet 0; WGo 0; WRet 0].
Definition pl (n : N) : frame := FPayload (mkPayload 9 [n + 1]%N [n] false false true).
Definition done : frame := FPayload (mkPayload 9 [] [] false true false).
Example C40_answer_ex : exists st tr, rreach true input_on 9 3 false st [[RO FUser]] tr /\
  answers tr = [pl 71; pl 80; done] /\ asks_input tr = [FRequestN 9 2147483647]%N /\ length (out_calls tr) = 8%nat.
Proof.
  destruct (rexec true input_on 9 3 false ex_moves (ex_start 1)) as [[[st ths] tr]|] eqn:X; [|vm_compute in X; discriminate X]. exists st, tr.
  assert (R := rexec_sound _ _ _ _ _ _ _ _ (rok_start _ _ _ _ _ 1) X). vm_compute in X. injection X as <- <- <-. split; [exact R|]. vm_compute. auto.
Qed.

(** ** Any number of threads *)

(** As long as the source's own calls do not overlap, whatever the other threads do: payloads, then at most one terminal frame, then nothing. *)
Theorem C40_serial : forall sync gin sid initial st ths tr, rreach sync gin sid initial true st ths tr -> stream_ok (answers tr) = true.
Proof. intros sync gin sid initial st ths tr R. exact (v_ok _ _ _ (ResponderProofs.reach_inv sync gin sid initial _ _ _ R)). Qed.
Print Assumptions C40_serial.
(** Three threads: the second takes over from the first, the third cancels while an item is on its way. *)
Example C40_serial_ex : exists st tr, rreach false input_on 9 3 true st [[RO FUser; RO FHandle; RAfter; RO FUser]; [RO FUser]; [RO FUser]] tr /\ answers tr = [pl 71; pl 72] /\
  out_calls tr = [FSubscribe; FNext (item 71); FNext (item 72); FluxModel.FCancel; FComplete].
Proof.
  destruct (rexec false input_on 9 3 true
    [WCall 0 RStart; WGo 0; WCall 0 (RO (FDo (FNext (item 71)))); WGo 0; WCall 1 (RO (FDo (FNext (item 72)))); WStep 1; WCall 2 (RO (FDo FluxModel.FCancel)); WGo 2;
     WGo 1; WCall 1 (RO (FDo FComplete)); WGo 1] (ex_start 3)) as [[[st ths] tr]|] eqn:X; [|vm_compute in X; discriminate X]. exists st, tr.
  assert (R := rexec_sound _ _ _ _ _ _ _ _ (rok_start _ _ _ _ _ 3) X). vm_compute in X. injection X as <- <- <-. split; [exact R|]. vm_compute. auto.
Qed.

(** And it is then, on any number of threads, the answer to the calls in the order in which they were made: a prefix of it at every moment, all of it
    whenever no call is under way. *)
Theorem C40_serial_answer : forall sync gin sid initial st ths tr, rreach sync gin sid initial true st ths tr ->
  (exists d, answer sid (out_calls tr) = answers tr ++ d) /\ (idle ths = true -> answers tr = answer sid (out_calls tr)).
Proof. exact serial_answer. Qed.
Print Assumptions C40_serial_answer.
Example C40_serial_answer_ex : exists st tr, rreach false input_on 9 3 true st [[RO FUser; RO FHandle; RAfter; RO FUser]; [RO FUser]; [RO FUser]] tr /\
  answers tr = [pl 71; pl 72; done] /\ out_calls tr = [FSubscribe; FNext (item 71); FNext (item 72); FComplete; FNext (item 73)].
Proof.
  destruct (rexec false input_on 9 3 true
    [WCall 0 RStart; WGo 0; WCall 0 (RO (FDo (FNext (item 71)))); WGo 0; WCall 1 (RO (FDo (FNext (item 72)))); WGo 1;
     WCall 2 (RO (FDo FComplete)); WGo 2; WCall 1 (RO (FDo (FNext (item 73)))); WGo 1] (ex_start 3)) as [[[st ths] tr]|] eqn:X; [|vm_compute in X; discriminate X]. exists st, tr.
  assert (R := rexec_sound _ _ _ _ _ _ _ _ (rok_start _ _ _ _ _ 3) X). vm_compute in X. injection X as <- <- <-. split; [exact R|]. vm_compute. auto.
Qed.

(** Overlapping calls: an item follows the completion, for good. *)
Theorem C40_two_threads_refuted : exists st tr, rreach false input_on 9 3 false st [[RO FUser; RO FHandle; RAfter; RO FUser]; [RO FUser]] tr /\
  answers tr = [done; pl 71] /\ stream_ok (answers tr) = false.
Proof.
  destruct (rexec false input_on 9 3 false
    [WCall 0 RStart; WGo 0; WCall 0 (RO (FDo (FNext (item 71)))); WStep 0; WCall 1 (RO (FDo FComplete)); WGo 1; WGo 0] (ex_start 2)) as [[[st ths] tr]|] eqn:X; [|vm_compute in X; discriminate X]. exists st, tr.
  assert (R := rexec_sound _ _ _ _ _ _ _ _ (rok_start _ _ _ _ _ 2) X). vm_compute in X. injection X as <- <- <-. split; [exact R|]. vm_compute. auto.
Qed.
Print Assumptions C40_two_threads_refuted.

(** The other frames are exactly what the handler asks of its input: a RequestN frame for every request, a Cancel frame for every cancellation. *)
Theorem C40_input : forall sync gin sid initial serial st ths tr, rreach sync gin sid initial serial st ths tr -> asks_input tr = input_demand sid tr.
Proof. intros sync gin sid initial serial st ths tr R. exact (reach_input sync gin sid initial _ _ _ _ R). Qed.
Print Assumptions C40_input.
Example C40_input_ex : exists st tr, rreach true input_on 9 3 false st [[RO FUser]] tr /\ input_demand 9 tr = [FRequestN 9 2147483647; FRequestN 9 4; FramesModel.FCancel 9]%N.
Proof.
  destruct (rexec true input_on 9 3 false
    [WCall 0 RStart; WGo 0; WCall 0 (RI (FDo FSubscribe)); WGo 0; WCall 0 (RI (FDo (FluxModel.FRequest 4))); WGo 0; WCall 0 (RI (FDo FluxModel.FCancel)); WGo 0; WRet 0; WGo 0] (ex_start 1)) as [[[st ths] tr]|] eqn:X; [|vm_compute in X; discriminate X]. exists st, tr.
  assert (R := rexec_sound _ _ _ _ _ _ _ _ (rok_start _ _ _ _ _ 1) X). vm_compute in X. injection X as <- <- <-. split; [exact R|]. vm_compute. auto.
Qed.

(** ** Credit *)

(** A handler that returns a slice (flux.FromSlice), wherever the requests come from: payloads, then at most one terminal frame, and never more
    payloads than the requests have granted. *)
Theorem C40_slice_credit : forall sid nested values st vs stack tr, sreach resp_cfg false nested values st vs stack tr ->
  stream_ok (frames_of sid tr) = true /\ (Z.of_nat (payloads (frames_of sid tr)) <= granted tr)%Z.
Proof. exact slice_frames. Qed.
Print Assumptions C40_slice_credit.
Example C40_slice_credit_ex : exists st vs tr, sreach resp_cfg false true [item 1; item 2; item 3]%N st vs [SI FUser] tr /\
  frames_of 9 tr = [pl 1; pl 2] /\ granted tr = 2%Z.
Proof.
  destruct (@drive pay bytes resp_cfg false true 100 [(0%nat, FSubscribe); (0%nat, FluxModel.FRequest 2)] (flux_create, [item 1; item 2; item 3]%N, [SI FUser], [])) as [[[st vs] stack] tr] eqn:X.
  exists st, vs, tr. assert (R : @s_ok pay bytes resp_cfg false true [item 1; item 2; item 3]%N (st, vs, stack, tr)) by (rewrite <- X; apply drive_sound, s_init).
  vm_compute in X. injection X as <- <- <- <-. split; [exact R|]. split; reflexivity.
Qed.

(** A source of its own making is not held to the credit: here none was granted, and nothing is held back. *)
Theorem C40_credit_refuted : exists st tr, rreach true input_on 9 0 false st [[RO FUser]] tr /\ answers tr = [pl 1; pl 2; done] /\
  forall c, In c (out_calls tr) -> match c with FluxModel.FRequest n => n = 0%Z | _ => True end.
Proof.
  destruct (rexec true input_on 9 0 false
    [WCall 0 RStart; WGo 0; WCall 0 (RO (FDo (FOnSubscribe true true))); WGo 0; WCall 0 (RO (FDo (FNext (item 1)))); WGo 0; WCall 0 (RO (FDo (FNext (item 2)))); WGo 0;
     WCall 0 (RO (FDo FComplete)); WGo 0; WRet 0; WGo 0; WRet 0] (ex_start 1)) as [[[st ths] tr]|] eqn:X; [|vm_compute in X; discriminate X]. exists st, tr.
  assert (R := rexec_sound _ _ _ _ _ _ _ _ (rok_start _ _ _ _ _ 1) X). vm_compute in X. injection X as <- <- <-. split; [exact R|]. split; [reflexivity|].
  intros c H. repeat (destruct H as [<-|H]; [reflexivity || exact Logic.I|]). destruct H.
Qed.
Print Assumptions C40_credit_refuted.

(** ** What goes wrong otherwise *)

(** A mapped flux sends on after the Error frame for an item it cannot transform. *)
Theorem C40_mapped_refuted : exists st tr, freach true resp_cfg st [[FUser]] tr /\
  let frames := frames_of 9 (flat_map (fmap_event (fun v : pay => match fst v with [] => inr [1]%N | _ => inl v end) resp_cfg) tr) in
  frames = [FramesModel.FError 9 0 [1]; pl 2; done]%N /\ stream_ok frames = false.
Proof.
  destruct (@fexec pay bytes true resp_cfg
    [NCall 0 FSubscribe; NStep 0; NCall 0 (FOnSubscribe true true); NStep 0; NStep 0; NCall 0 (FNext ([], [])); NStep 0; NStep 0; NStep 0; NRet 0; NStep 0;
     NCall 0 (FNext (item 2)); NStep 0; NStep 0; NStep 0; NRet 0; NStep 0; NCall 0 FComplete; NStep 0; NStep 0; NStep 0; NRet 0; NStep 0; NStep 0; NStep 0; NRet 0; NStep 0] (flux_create, [[FUser]], [])) as [[[st ths] tr]|] eqn:X; [|vm_compute in X; discriminate].
  exists st, tr. assert (R : freach true resp_cfg st ths tr) by (eapply fexec_sound; [apply (f_init true resp_cfg 1)|exact X]).
  vm_compute in X. injection X as <- <- <-. split; [exact R|]. split; reflexivity.
Qed.
Print Assumptions C40_mapped_refuted.

(** The stream is registered before the handler runs but its subscription is set only after Subscribe has returned: a RequestN frame handled in
    between calls a method of nil. *)
Theorem C40_early_refuted : exists st ths tr, rreach false input_on 9 3 false st ((RNetDo (RNRequest 5) :: [RO FUser]) :: ths) tr /\
  rstep false input_on 9 3 st (RNetDo (RNRequest 5)) = None /\ In FSubscribe (out_calls tr).
Proof.
  destruct (rexec false input_on 9 3 false [WCall 1 RStart; WGo 1; WCall 0 (RNetDo (RNRequest 5))] (ex_start 2)) as [[[st ths] tr]|] eqn:X; [|vm_compute in X; discriminate X].
  assert (R := rexec_sound _ _ _ _ _ _ _ _ (rok_start _ _ _ _ _ 2) X). vm_compute in X. injection X as <- <- <-. eexists; eexists; eexists. split; [exact R|]. split; [reflexivity|]. left. reflexivity.
Qed.
Print Assumptions C40_early_refuted.

(** A Cancel frame is handled as [OnComplete] of the stream.  On a channel that completes the handler's input; the answer goes on. *)
Theorem C40_cancel_channel_refuted : exists st tr, rreach true input_on 9 3 false st [[RO FUser]] tr /\ answers tr = [pl 1; pl 2; done] /\
  exists a b, tr = a ++ RNet RNComplete :: b /\ answers a = [pl 1].
Proof.
  destruct (rexec true input_on 9 3 false
    [WCall 0 RStart; WGo 0; WCall 0 (RI (FDo FSubscribe)); WGo 0; WCall 0 (RO (FDo (FOnSubscribe true true))); WGo 0; WRet 0; WGo 0;
     WCall 0 (RO (FDo (FNext (item 1)))); WGo 0; WCall 0 (RNetDo RNComplete); WGo 0; WRet 0; WGo 0;
     WCall 0 (RO (FDo (FNext (item 2)))); WGo 0; WCall 0 (RO (FDo FComplete)); WGo 0; WRet 0; WGo 0] (ex_start 1)) as [[[st ths] tr]|] eqn:X; [|vm_compute in X; discriminate X]. exists st, tr.
  assert (R := rexec_sound _ _ _ _ _ _ _ _ (rok_start _ _ _ _ _ 1) X). vm_compute in X. injection X as <- <- <-. split; [exact R|]. split; [reflexivity|].
  match goal with |- exists a b, ?t = _ /\ _ => exists (firstn 11 t), (skipn 12 t) end. vm_compute. split; reflexivity.
Qed.
Print Assumptions C40_cancel_channel_refuted.
(** On a stream there is no input to complete: it calls a method of nil. *)
Theorem C40_cancel_stream_refuted : exists st tr, rreach true input_on 9 3 false st [[RNetDo RNComplete; RO FUser]] tr /\
  rstep true input_on 9 3 st (RNetDo RNComplete) = None /\ answers tr = [pl 1].
Proof.
  destruct (rexec true input_on 9 3 false
    [WCall 0 RStart; WGo 0; WCall 0 (RO (FDo (FOnSubscribe true true))); WGo 0; WRet 0; WGo 0; WRet 0;
     WCall 0 (RO (FDo (FNext (item 1)))); WGo 0; WCall 0 (RNetDo RNComplete)] (ex_start 1)) as [[[st ths] tr]|] eqn:X; [|vm_compute in X; discriminate X]. exists st, tr.
  assert (R := rexec_sound _ _ _ _ _ _ _ _ (rok_start _ _ _ _ _ 1) X). vm_compute in X. injection X as <- <- <-. split; [exact R|]. split; reflexivity.
Qed.
Print Assumptions C40_cancel_stream_refuted.
