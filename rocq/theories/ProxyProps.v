(** C42: the credit a requester puts on the wire. *)
From Coq Require Import List NArith ZArith Bool Lia Permutation.
From Verif Require Import Base FramesModel MonoModel FluxModel ProxyModel ProxySpec ProxyProofs ProxyTotal.
Import ListNotations.

(** ** Whatever the threads do *)

(** The frames sent are exactly: the request frame for the first request that reaches the source, with that number as initial credit, a RequestN
    frame for each later one, until the stream is complete; and a Cancel frame for each cancellation that reaches the source. *)
Theorem C42_frames : forall sync g r has_in st ths tr, preach sync g r has_in st ths tr ->
  credit_frames tr = credit_owed r (demands (until_complete tr)) /\
  cancel_frames tr = repeat (FramesModel.FCancel (rf_stream_id r)) (source_cancels tr) /\
  credit_frames (after_complete tr) = [].
Proof.
  intros sync g r has_in st ths tr R. destruct (reach_inv _ _ _ _ _ _ _ R) as [_ _ A B]. split; [exact A|]. split; [exact B|]. exact (reach_after _ _ _ _ _ _ _ R).
Qed.
Print Assumptions C42_frames.

Definition ex_request : request_frame := mkRequest 6 9 [1]%N [2]%N false true 0%N.
Definition by_hand : fcfg := mkF true true true true true false.
(** Requests 3 inside OnRequest and 5 later, gets an item and a completion, asks again, cancels. *)
Definition ex_moves : list pmove :=
  [QCall 0 (PI (FDo FSubscribe)); QGo 0; QCall 0 (PI (FDo (FluxModel.FRequest 3))); QGo 0; QRet 0; QCall 0 (PI (FDo (FluxModel.FRequest 5))); QGo 0;
   QCall 0 (PNetDo (NNext ([7]%N, []))); QGo 0; QRet 0; QGo 0; QCall 0 (PNetDo NComplete); QGo 0; QRet 0; QGo 0; QRet 0; QGo 0;
   QCall 0 (PI (FDo (FluxModel.FRequest 8))); QGo 0; QCall 0 (PI (FDo FluxModel.FCancel)); QGo 0; QRet 0].
Definition ex_start : pconf := (proxy_create, [[PI FUser]], []).
Lemma ex_ok : forall sync g r has_in, ok sync g r has_in ex_start.
Proof. intros. exact (p_init sync g r has_in 1). Qed.
Definition ex_run : option pconf := pexec true by_hand ex_request false ex_moves ex_start.
Example C42_frames_ex : exists st tr, preach true by_hand ex_request false st [[PI FUser]] tr /\
  frames_sent tr = [FramesModel.FRequest (mkRequest 6 9 [1]%N [2]%N false true 3%N); FRequestN 9 5; FramesModel.FCancel 9]%N /\
  demands (until_complete tr) = [3; 5]%Z /\ demands tr = [3; 5; 8]%Z.
Proof.
  destruct ex_run as [[[st ths] tr]|] eqn:X; [|vm_compute in X; discriminate X]. exists st, tr.
  assert (R := pexec_sound _ _ _ _ _ _ _ (ex_ok _ _ _ _) X). vm_compute in X. injection X as <- <- <-. split; [exact R|]. vm_compute. auto.
Qed.

(** ** One thread *)

(** Whenever user code runs, the requests made by the subscriber are exactly the requests that reached the source, in order, if it does its own
    requests; otherwise automatic requests of 2147483647 may be found among them. *)
Theorem C42_requests : forall sync g r has_in st stack tr, preach sync g r has_in st [PI FUser :: stack] tr ->
  padded (negb (manual g)) (requests (until_complete tr)) (demands (until_complete tr)) /\
  (manual g = true -> demands (until_complete tr) = requests (until_complete tr)).
Proof.
  intros sync g r has_in st stack tr R. destruct (reach_J sync g r has_in _ _ _ R _ eq_refl) as [_ _ A U].
  assert (P : padded (negb (manual g)) (requests (until_complete tr)) (demands (until_complete tr))).
  { destruct (completed tr) eqn:C; [apply U; reflexivity|]. rewrite (until_not tr C). cbn [pend under_way1] in A. rewrite app_nil_r in A. exact A. }
  split; [exact P|]. intro M. rewrite M in P. apply padded_eq. exact P.
Qed.
Print Assumptions C42_requests.

Lemma total_owed : forall sync g r has_in st ths tr, preach sync g r has_in st ths tr ->
  Z.of_N (total tr) = sum (map (fun n => (n mod 4294967296)%Z) (demands (until_complete tr))).
Proof.
  intros sync g r has_in st ths tr R. destruct (reach_inv _ _ _ _ _ _ _ R) as [_ _ A B].
  assert (S : forall l, Forall (fun f => is_cancel f = true -> credit f = 0%N) l -> fold_right N.add 0%N (map credit l) = fold_right N.add 0%N (map credit (filter (fun f => negb (is_cancel f)) l))).
  { intros l Fl. induction Fl as [|f l Hf Hl IH]; [reflexivity|]. cbn [map fold_right filter]. destruct (is_cancel f); cbn [negb]; [rewrite Hf, IH by reflexivity; reflexivity|]. cbn [map fold_right]. rewrite IH. reflexivity. }
  unfold total. rewrite S. 2: { apply Forall_forall. intros f _. destruct f; try discriminate. reflexivity. }
  fold (credit_frames tr). rewrite A. destruct (demands (until_complete tr)) as [|n ns]; [reflexivity|]. cbn [credit_owed map fold_right credit rf_initial_n sum].
  assert (U : forall m, Z.of_N (u32z m) = (m mod 4294967296)%Z) by (intro m; unfold u32z; rewrite Z2N.id; [reflexivity|]; apply Z.mod_pos_bound; reflexivity).
  rewrite N2Z.inj_add, U. unfold sum. cbn [fold_right]. f_equal. clear A. induction ns as [|m ns IH]; [reflexivity|]. cbn [map fold_right credit]. rewrite N2Z.inj_add, U, IH. reflexivity.
Qed.

(** So the credit sent is the credit asked for before completion - if every single request lies between 0 and 2^32 - 1; in general
    each is taken modulo 2^32. *)
Theorem C42_total : forall sync g r has_in st stack tr, preach sync g r has_in st [PI FUser :: stack] tr -> manual g = true ->
  Z.of_N (total tr) = sum (map (fun n => (n mod 4294967296)%Z) (requests (until_complete tr))) /\
  (Forall in_u32 (requests (until_complete tr)) -> Z.of_N (total tr) = sum (requests (until_complete tr))).
Proof.
  intros sync g r has_in st stack tr R M. assert (T := total_owed _ _ _ _ _ _ _ R). rewrite (proj2 (C42_requests _ _ _ _ _ _ _ R) M) in T. split; [exact T|]. intro F. rewrite T. f_equal.
  clear T. induction F as [|n l Hn F IH]; [reflexivity|]. cbn [map]. f_equal; [apply Z.mod_small; exact Hn|exact IH].
Qed.
Print Assumptions C42_total.
Example C42_total_ex : exists st tr, preach true by_hand ex_request false st [[PI FUser]] tr /\ manual by_hand = true /\ Forall in_u32 (requests (until_complete tr)) /\ total tr = 8%N /\ requests tr = [3; 5; 8]%Z.
Proof.
  destruct ex_run as [[[st ths] tr]|] eqn:X; [|vm_compute in X; discriminate X]. exists st, tr.
  assert (R := pexec_sound _ _ _ _ _ _ _ (ex_ok _ _ _ _) X). vm_compute in X. injection X as <- <- <-. split; [exact R|]. split; [reflexivity|]. split; [|vm_compute; auto].
  repeat constructor; discriminate.
Qed.

(** A subscriber without OnRequest and NoRequest asks for 2147483647 at once. *)
Theorem C42_automatic : forall sync g r has_in st stack tr, preach sync g r has_in st [stack] tr -> manual g = false ->
  credit_frames tr = [] \/ exists fs, credit_frames tr = FramesModel.FRequest (mkRequest (rf_type r) (rf_stream_id r) (rf_metadata r) (rf_data r) (rf_follows r) (rf_complete r) 2147483647%N) :: fs.
Proof.
  intros sync g r has_in st stack tr R M. destruct (reach_inv _ _ _ _ _ _ _ R) as [_ _ A _]. rewrite A. assert (O := reach_opened sync g r has_in M _ _ _ R _ eq_refl).
  assert (P : exists s, demands tr = demands (until_complete tr) ++ s).
  { clear. induction tr as [|e t [s IH]]; [exists []; reflexivity|]. change (e :: t) with ([e] ++ t). rewrite demands_app, IH. destruct e; cbn [until_complete app]; try (exists s; match goal with |- _ = demands (?e :: ?l) ++ _ => change (e :: l) with ([e] ++ l) end; rewrite demands_app; rewrite <- app_assoc; reflexivity).
    eexists. reflexivity. }
  destruct P as [s P]. destruct (demands (until_complete tr)) as [|n ns] eqn:D; [left; reflexivity|]. right.
  assert (E : n = request_max).
  { destruct O as [(_ & O)|[(_ & _ & O & _)|[(_ & O & _)|(_ & ds' & O)]]]; try (rewrite O in P; discriminate P). rewrite P in O. injection O as -> _. reflexivity. }
  rewrite E. eexists. reflexivity.
Qed.
Print Assumptions C42_automatic.
Definition no_callbacks : fcfg := mkF true false false false false false.
Example C42_automatic_ex : exists st tr, preach true no_callbacks ex_request false st [[PI FUser]] tr /\ manual no_callbacks = false /\
  frames_sent tr = [FramesModel.FRequest (mkRequest 6 9 [1]%N [2]%N false true 2147483647%N)].
Proof.
  destruct (pexec true no_callbacks ex_request false [QCall 0 (PI (FDo FSubscribe)); QGo 0] ex_start) as [[[st ths] tr]|] eqn:X; [|vm_compute in X; discriminate X]. exists st, tr.
  assert (R := pexec_sound _ _ _ _ _ _ _ (ex_ok _ _ _ _) X). vm_compute in X. injection X as <- <- <-. split; [exact R|]. vm_compute. auto.
Qed.

(** ** Hosts: requests run in goroutines *)

(** From any moment on at which the source is there, whatever the threads do: every request made reaches the source exactly once or
    is still under way.  The order may change. *)
Theorem C42_hosts : forall sync g r has_in st0 ths0 tr0 st ths tr, preach sync g r has_in st0 ths0 tr0 -> manual g = true ->
  f_sub (p_fl st0) = true -> f_req (p_fl st0) = true -> forallb (forallb no_on_subscribe) ths0 = true -> under_way ths0 = [] ->
  pfrom sync g r has_in st0 ths0 st ths tr -> Permutation (requests tr) (demands tr ++ under_way ths).
Proof.
  intros sync g r has_in st0 ths0 tr0 st ths tr _ M Sb Rq On U F. destruct (from_multi sync g r has_in st0 ths0 M Sb Rq On _ _ _ F) as (_ & _ & _ & P). rewrite U, app_nil_r in P. exact P.
Qed.
Print Assumptions C42_hosts.
Example C42_hosts_ex : exists st tr, preach false by_hand ex_request false st [[PI FUser]] tr /\ manual by_hand = true /\ f_sub (p_fl st) = true /\ f_req (p_fl st) = true
  /\ forallb (forallb no_on_subscribe) [[PI FUser]] = true /\ under_way [[PI FUser]] = [].
Proof.
  destruct (pexec false by_hand ex_request false [QCall 0 (PI (FDo FSubscribe)); QGo 0; QRet 0] ex_start) as [[[st ths] tr]|] eqn:X; [|vm_compute in X; discriminate X]. exists st, tr.
  assert (R := pexec_sound _ _ _ _ _ _ _ (ex_ok _ _ _ _) X). vm_compute in X. injection X as <- <- <-. split; [exact R|]. vm_compute. repeat split.
Qed.
(** Two requests that overtake each other. *)
Definition ex_host : list pmove :=
  [QCall 0 (PI (FDo FSubscribe)); QGo 0; QRet 0; QCall 0 (PI (FDo (FluxModel.FRequest 3))); QGo 0; QCall 0 (PI (FDo (FluxModel.FRequest 5))); QGo 0; QGo 2; QGo 1].
Theorem C42_order_refuted : exists st ths tr, preach false by_hand ex_request false st ths tr /\ requests tr = [3; 5]%Z /\
  frames_sent tr = [FramesModel.FRequest (mkRequest 6 9 [1]%N [2]%N false true 5%N); FRequestN 9 3]%N.
Proof.
  destruct (pexec false by_hand ex_request false ex_host ex_start) as [[[st ths] tr]|] eqn:X; [|vm_compute in X; discriminate X]. exists st, ths, tr.
  assert (R := pexec_sound _ _ _ _ _ _ _ (ex_ok _ _ _ _) X). vm_compute in X. injection X as <- <- <-. split; [exact R|]. vm_compute. auto.
Qed.
Print Assumptions C42_order_refuted.

(** ** Where the claim fails *)

(** A request of 2^32 or -1 is sent as a credit of 0 or 2^32 - 1. *)
Theorem C42_range_refuted : exists st tr, preach true by_hand ex_request false st [[PI FUser]] tr /\ requests tr = [4294967296; -1]%Z /\
  frames_sent tr = [FramesModel.FRequest (mkRequest 6 9 [1]%N [2]%N false true 0%N); FRequestN 9 4294967295]%N.
Proof.
  destruct (pexec true by_hand ex_request false [QCall 0 (PI (FDo FSubscribe)); QGo 0; QRet 0; QCall 0 (PI (FDo (FluxModel.FRequest 4294967296))); QGo 0; QCall 0 (PI (FDo (FluxModel.FRequest (-1)))); QGo 0] ex_start) as [[[st ths] tr]|] eqn:X; [|vm_compute in X; discriminate X].
  exists st, tr. assert (R := pexec_sound _ _ _ _ _ _ _ (ex_ok _ _ _ _) X). vm_compute in X. injection X as <- <- <-. split; [exact R|]. vm_compute. auto.
Qed.
Print Assumptions C42_range_refuted.

(** A request made while the completion is being delivered is still sent, and so is a Cancel at any time later. *)
Definition events_after_complete (tr : list pevent) : list pevent :=
  (fix go l := match l with [] => [] | PNet NComplete :: l' => l' | _ :: l' => go l' end) tr.
Theorem C42_late_refuted : exists st tr, preach true by_hand ex_request false st [[PI FUser]] tr /\ frames_sent (events_after_complete tr) = [FRequestN 9 4; FramesModel.FCancel 9]%N.
Proof.
  destruct (pexec true by_hand ex_request false [QCall 0 (PI (FDo FSubscribe)); QGo 0; QRet 0; QCall 0 (PI (FDo (FluxModel.FRequest 3))); QGo 0;
    QCall 0 (PNetDo NComplete); QGo 0; QCall 0 (PI (FDo (FluxModel.FRequest 4))); QGo 0; QRet 0; QGo 0; QRet 0; QGo 0; QCall 0 (PI (FDo FluxModel.FCancel)); QGo 0; QRet 0] ex_start) as [[[st ths] tr]|] eqn:X; [|vm_compute in X; discriminate X].
  exists st, tr. assert (R := pexec_sound _ _ _ _ _ _ _ (ex_ok _ _ _ _) X). vm_compute in X. injection X as <- <- <-. split; [exact R|]. vm_compute. auto.
Qed.
Print Assumptions C42_late_refuted.
