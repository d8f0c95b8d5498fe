(** The life of a transport. *)
From Coq Require Import List Bool Lia.
From Verif Require Import Base UnboundedModel TransportModel TransportSpec TransportProofs.
Import ListNotations.

(** Frames are handled in the order in which they were read, each once, and nothing panics. *)
Theorem C59_order : forall F E (es : list (tevent F E)) r, trun tstart es r ->
  (exists t, r = Ret t) /\ is_prefix (frames_handled es) (frames_read es).
Proof. intros F E. exact order_proof. Qed.
Print Assumptions C59_order.

(** When Start returns (and the connection is closed) every frame read has been handled, there is a reason for the result - a dispatching error is
    that of the first frame that failed - and nothing happens afterwards but the cancelling of the context. *)
Theorem C59_return : forall F E (es1 : list (tevent F E)) r es2 q, trun tstart (es1 ++ OReturn r :: es2) q ->
  frames_handled es1 = frames_read es1 /\ justified r es1 /\ (forall e, In e es2 -> e = OCancel).
Proof. intros F E. exact drained_proof. Qed.
Print Assumptions C59_return.

(** Once the handling of a frame has failed no more than one read of the connection returns. *)
Theorem C59_stops : forall F E (es1 : list (tevent F E)) f x es2 q, trun tstart (es1 ++ OHandled f (Some x) :: es2) q -> reads_done es2 <= 1.
Proof. intros F E. exact stops_proof. Qed.
Print Assumptions C59_stops.

(** The failure is reported, unless the context is cancelled too, if that read gives a frame. *)
Theorem C59_reports : forall F E (es1 : list (tevent F E)) f x es2 g r q, trun tstart (es1 ++ OHandled f (Some x) :: es2) q -> In (ORead g) es2 -> In (OReturn r) es2 ->
  r = RCtx \/ exists e, r = RDispatch e.
Proof. intros F E. exact reports_proof. Qed.
Print Assumptions C59_reports.

(** If handlers return, Start does: on its way out it takes a bounded number of steps, whatever the schedule, and a transport that cannot go on has
    returned. *)
Theorem C59_leaves : forall F E (es : list (tevent F E)) t, trun tstart es (Ret t) -> leaving t ->
  exists n, forall es' r, trun t es' r -> length es' <= n.
Proof. intros F E es t H L. exists (measure t). exact (leaving_bound es t H L). Qed.
Print Assumptions C59_leaves.
Theorem C59_not_stuck : forall F E (es : list (tevent F E)) t, trun tstart es (Ret t) -> (forall a, a <> TCtx -> tstep t a = None) -> returned t.
Proof. intros F E. exact stuck_proof. Qed.
Print Assumptions C59_not_stuck.

(** Three frames are read; the second fails while the third is read, the third fails too; then Start returns the first error. *)
Definition visible_events {F E} (es : list (tevent F E)) : list (tevent F E) := filter (fun e => match e with OTau => false | _ => true end) es.
Definition put3 : list (taction nat nat) := [TStart; TStart; TStart].
Definition ex_run : list (taction nat nat) :=
  [TPickDefault; TRead (inl 1)] ++ put3 ++ [TPickDefault; TLoop; THandled None; TRead (inl 2); TLoop] ++ put3 ++
  [TPickDefault; TLoop; THandled (Some 7); TRead (inl 3); TStart; TStart; TStart; TPickErr; TLoop; TLoop; THandled (Some 8); TStart; TStart; TLoop; TLoop; TLoop; TLoop; TStart; TCtx].
Example C59_ex : exists es t, trun tstart es (Ret t) /\ returned t /\
  visible_events es = [ORead 1; OHandled 1 None; ORead 2; OHandled 2 (Some 7); ORead 3; OHandled 3 (Some 8); OReturn (RDispatch 7); OCancel].
Proof.
  destruct (texec tstart ex_run) as [[es t]|] eqn:Q; [|vm_compute in Q; discriminate].
  exists es, t. split; [exact (texec_run _ _ _ _ Q)|]. vm_compute in Q. injection Q as <- <-. split; [eexists; reflexivity|reflexivity].
Qed.

(** A failure is not always reported, nor does it close the connection by itself: if the next read meets the end, Start returns nil, and as long as
    nothing is read, Start waits. *)
Theorem C59_reports_refuted : exists (es : list (tevent nat nat)) t, trun tstart es (Ret t) /\ In (OHandled 1 (Some 7)) es /\ In (OReturn RNil) es.
Proof.
  destruct (texec tstart ([TPickDefault; TRead (inl 1)] ++ put3 ++ [TPickDefault; TLoop; THandled (Some 7); TRead (inr None); TStart; TStart; TLoop; TLoop; TLoop; TLoop; TStart])) as [[es t]|] eqn:Q;
    [|vm_compute in Q; discriminate].
  exists es, t. split; [exact (texec_run _ _ _ _ Q)|]. vm_compute in Q. injection Q as <- <-. cbn. tauto.
Qed.
Print Assumptions C59_reports_refuted.
Theorem C59_closes_refuted : exists (es : list (tevent nat nat)) t, trun tstart es (Ret t) /\ In (OHandled 1 (Some 7)) es /\
  (forall a, (forall r, a <> TRead r) -> a <> TCtx -> tstep t a = None).
Proof.
  destruct (texec tstart ([TPickDefault; TRead (inl 1)] ++ put3 ++ [TPickDefault; TLoop; THandled (Some 7); TLoop])) as [[es t]|] eqn:Q;
    [|vm_compute in Q; discriminate].
  exists es, t. split; [exact (texec_run _ _ _ _ Q)|]. vm_compute in Q. injection Q as <- <-. split; [cbn; tauto|].
  intros a H1 H2. destruct a; try reflexivity; [congruence|exfalso; apply (H1 r); reflexivity].
Qed.
Print Assumptions C59_closes_refuted.
