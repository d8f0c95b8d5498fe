(** C73: a streaming call from module to module through the mesh; each theorem with its assumptions and an example. *)
From Coq Require Import List NArith ZArith Lia Bool.
From Verif Require Import Base FramesModel FramesSpec OperationsModel InvokeModel MonoModel FluxModel FluxSpec ProxyModel ProxySpec DispatchModel DispatchSpec ResponderModel ResponderSpec MeshModel.
From Verif Require Import StreamModel StreamSpec StreamProofs RelayStreamModel RelayStreamSpec RelayStreamProofs.
From Verif Require CallSpec RelaySpec.
Import ListNotations.
Open Scope N_scope.

(** Two modules: the first imports an operation the second exports, under number 1, and one that the second does not have, under number 2. *)
Definition ex_mesh : mesh := mkMesh [] [] (fun i k => match i, k with O, RS => [None; Some (mkDest 1 0); Some (mkDest 1 3)] | _, _ => [] end).
Definition ex_exported (i : nat) (k : ikind) : list (option nat) := match i, k with 1%nat, RS => [Some 7%nat] | _, _ => [] end.
Definition ex_md : bytes := [0; 0; 0; 1; 0; 0; 0; 9].
Definition ex_md2 : bytes := [0; 0; 0; 0; 0; 0; 0; 9].
Definition ex_no : bytes := [0; 0; 0; 2; 0; 0; 0; 9].
Definition ex_no2 : bytes := [0; 0; 0; 3; 0; 0; 0; 9].
Definition ex_all : fcfg := mkF true true true false false false.
Definition ex_hand : fcfg := mkF true true true false false true.

Definition xallowedb (x : duo nat) (mv : xmove) : bool := match mv with XFirst mv => allowedb 5 (x_first x) mv | XSecond mv => allowedb 4 (x_second x) mv | _ => true end.
Fixpoint ex_runs (d : destination) (g : fcfg) (md md2 : bytes) (x : duo nat) (ms : list xmove) : option (duo nat) :=
  match ms with
  | [] => Some x
  | mv :: ms' => if xallowedb x mv then match do_x ex_mesh ex_exported false true 0 d g 5 4 [1; 2] md md2 x mv with Some x' => ex_runs d g md md2 x' ms' | None => None end else None
  end.
Definition ex_reach (d : destination) (g : fcfg) (md md2 : bytes) := xreach ex_mesh ex_exported false true 0 d g 5 4 [1; 2] md md2.
Lemma ex_by : forall d g md md2 ms x x', ex_reach d g md md2 x -> ex_runs d g md md2 x ms = Some x' -> ex_reach d g md md2 x'.
Proof.
  intros d g md md2. induction ms as [|mv ms IH]; intros x x' R X; [injection X as <-; exact R|]. cbn [ex_runs] in X. destruct (xallowedb x mv) eqn:A; [|discriminate X]. destruct (do_x _ _ _ _ _ _ _ _ _ _ _ _ x mv) as [x1|] eqn:D; [|discriminate X].
  eapply IH; [|exact X]. eapply x_move; [exact R| |exact D]. destruct mv; cbn [xallowed xallowedb] in *; try exact Logic.I; apply allowedb_sound; exact A.
Qed.
Ltac reached d g md md2 ms :=
  let v := eval vm_compute in (ex_runs d g md md2 (duo_create 1 2 1) ms) in
  match v with Some ?c => exists c; split; [apply (ex_by d g md md2 ms (duo_create 1 2 1)); [apply x_init|vm_cast_no_check (eq_refl v)]|] end.

Definition ex_call : list xmove := XFirst (MPCall 1 FSubscribe) :: repeat (XFirst (MPStep 1)) 8.
Definition ex_passed : list xmove := [XFirst MRRecv; XFirst MRAct; XFirst MRAct; XTask 0 1; XTask 0 1] ++ repeat (XThread 1) 10 ++ [XThread 3; XThread 3].
Definition ex_started : list xmove := [XSecond MRRecv; XSecond MRAct; XSecond MRAct; XSecond (MTask 0 1); XSecond (MTask 0 1); XSecond (MRStep 1); XSecond (MRStep 1); XSecond (MRReturn 1)] ++ repeat (XSecond (MRStep 1)) 4.
Definition ex_item : list xmove := XSecond (MRCall 1 (FNext ([10], [3]))) :: repeat (XSecond (MRStep 1)) 4.
Definition ex_end : list xmove := XSecond (MRCall 1 FComplete) :: repeat (XSecond (MRStep 1)) 6.
Definition ex_back : list xmove := [XSecond MPRecv; XSecond MPAct] ++ repeat (XThread 0) 5 ++ [XFirst MPRecv; XFirst MPAct] ++ repeat (XFirst (MPStep 0)) 4 ++ [XFirst (MPReturn 0); XFirst (MPStep 0)].
Definition ex_ended : list xmove := [XSecond MPRecv; XSecond MPAct] ++ repeat (XThread 0) 8 ++ [XSecond MPAct; XFirst MPRecv; XFirst MPAct] ++ repeat (XFirst (MPStep 0)) 4 ++ [XFirst (MPReturn 0)] ++ repeat (XFirst (MPStep 0)) 4 ++ [XFirst MPAct].
Definition ex_dest : destination := mkDest 1 0.
Lemma ex_ok : RelaySpec.mesh_ok ex_mesh ex_exported 2 /\ CallSpec.sendable [1; 2] ex_md /\ routed ex_mesh ex_exported 0 ex_dest ex_md 7%nat /\ redirect ex_dest (Some ex_md) = Ret (Some ex_md2) /\
  CallSpec.sendable [1; 2] ex_no /\ nth_error (m_tabs ex_mesh 0 RS) (N.to_nat (number4 ex_no)) = Some (Some (mkDest 1 3)) /\ redirect (mkDest 1 3) (Some ex_no) = Ret (Some ex_no2).
Proof.
  split; [split; [intros [|[|i]] []; split; reflexivity|]|].
  { intros [|i] k d I; [|destruct I]. destruct k; try (destruct I; fail). destruct I as [I|[I|[I|[]]]]; try discriminate I; injection I as <-; split; repeat constructor. }
  split; [split; [repeat constructor|split; reflexivity]|]. split; [split; [discriminate|split; reflexivity]|]. split; [reflexivity|]. split; [split; [repeat constructor|split; reflexivity]|]. split; reflexivity.
Qed.

(** C73: whatever moves come in whatever order, what the calling guest's subscriber has seen is a beginning of what is owed for the calls that the source in
    the exporting guest made, in their order. *)
Theorem C73_stream : forall G (m : mesh) (exported : nat -> ikind -> list (option G)) n shost sguest a d g sid1 sid2 data md md2 h x,
  RelaySpec.mesh_ok m exported n -> sid1 < 2^31 -> sid2 < 2^31 -> CallSpec.sendable data md -> routed m exported a d md h -> redirect d (Some md) = Ret (Some md2) ->
  xreach m exported shost sguest a d g sid1 sid2 data md md2 x -> exists y, expected g (emitted (x_second x)) = seen (x_first x) ++ y.
Proof. intros G m exported n shost sguest a d g sid1 sid2 data md md2 h x Ok S1 S2 Sn (L & Nd & Nh) Rd R. eapply (relay_stream m exported n shost sguest a d g sid1 sid2); eassumption. Qed.
Print Assumptions C73_stream.
Example C73_stream_example : exists x, ex_reach ex_dest ex_all ex_md ex_md2 x /\ seen (x_first x) = [VNext ([10], [3])] /\ emitted (x_second x) = [FSubscribe; FRequest 2147483647; FNext ([10], [3]); FComplete].
Proof. reached ex_dest ex_all ex_md ex_md2 (ex_call ++ ex_passed ++ ex_started ++ ex_item ++ ex_end ++ ex_back). split; reflexivity. Qed.

(** C73: once nothing is under way, and if the calling guest has neither cancelled nor closed, its subscriber has seen all of it. *)
Theorem C73_rest : forall G (m : mesh) (exported : nat -> ikind -> list (option G)) n shost sguest a d g sid1 sid2 data md md2 h x,
  RelaySpec.mesh_ok m exported n -> sid1 < 2^31 -> sid2 < 2^31 -> CallSpec.sendable data md -> routed m exported a d md h -> redirect d (Some md) = Ret (Some md2) ->
  xreach m exported shost sguest a d g sid1 sid2 data md md2 x -> x_rest x -> undisturbed (x_first x) -> seen (x_first x) = expected g (emitted (x_second x)).
Proof. intros G m exported n shost sguest a d g sid1 sid2 data md md2 h x Ok S1 S2 Sn (L & Nd & Nh) Rd R Re U. eapply (relay_rest_all m exported n shost sguest a d g sid1 sid2); eassumption. Qed.
Print Assumptions C73_rest.
Example C73_rest_example : exists x, ex_reach ex_dest ex_all ex_md ex_md2 x /\ x_rest x /\ undisturbed (x_first x) /\ seen (x_first x) = [VNext ([10], [3]); VComplete].
Proof.
  reached ex_dest ex_all ex_md ex_md2 (ex_call ++ ex_passed ++ ex_started ++ ex_item ++ ex_end ++ ex_back ++ ex_ended). split; [split; repeat split; eexists; reflexivity|]. split; [|reflexivity]. split; intro Z; repeat (destruct Z as [Z|Z]; [discriminate Z|]); exact Z.
Qed.

(** C73: the handler the import is linked to runs at most once in the exporting guest, with the caller's data and the caller's metadata but for the index;
    the destination is called at most once. *)
Theorem C73_handler : forall G (m : mesh) (exported : nat -> ikind -> list (option G)) n shost sguest a d g sid1 sid2 data md md2 h x,
  RelaySpec.mesh_ok m exported n -> sid1 < 2^31 -> sid2 < 2^31 -> CallSpec.sendable data md -> routed m exported a d md h -> redirect d (Some md) = Ret (Some md2) ->
  xreach m exported shost sguest a d g sid1 sid2 data md md2 x ->
  md2 = be 4 (d_index d) ++ skipn 4 md /\
  Forall (fun r => fst r = (inr h, data, md2)) (c_runs (x_second x)) /\ (length (c_runs (x_second x)) <= 1)%nat /\
  Forall (fun r => fst r = (inl d, data, md)) (c_runs (x_first x)) /\ (length (c_runs (x_first x)) <= 1)%nat.
Proof.
  intros G m exported n shost sguest a d g sid1 sid2 data md md2 h x Ok S1 S2 Sn (L & Nd & Nh) Rd R. split; [eapply md2_is; eassumption|]. eapply (relay_runs m exported n shost sguest a d g sid1 sid2); eassumption.
Qed.
Print Assumptions C73_handler.
Example C73_handler_example : exists x, ex_reach ex_dest ex_all ex_md ex_md2 x /\ c_runs (x_first x) = [(inl ex_dest, [1; 2], ex_md, 2147483647)] /\ c_runs (x_second x) = [(inr 7%nat, [1; 2], ex_md2, 2147483647)].
Proof. reached ex_dest ex_all ex_md ex_md2 (ex_call ++ ex_passed ++ ex_started). split; reflexivity. Qed.

(** C73: if the import is linked to an index that the exporting guest has no handler for, none runs and the caller's subscriber sees that one error. *)
Theorem C73_refused : forall G (m : mesh) (exported : nat -> ikind -> list (option G)) n shost sguest a d g sid1 sid2 data md md2 x,
  RelaySpec.mesh_ok m exported n -> sid1 < 2^31 -> sid2 < 2^31 -> CallSpec.sendable data md ->
  8 <= len md -> nth_error (m_tabs m a RS) (N.to_nat (number4 md)) = Some (Some d) -> (forall h, nth_error (exported (d_inst d) RS) (N.to_nat (d_index d)) <> Some (Some h)) -> redirect d (Some md) = Ret (Some md2) ->
  xreach m exported shost sguest a d g sid1 sid2 data md md2 x ->
  let owed := if k_error g then [VError not_found] else [] in
  c_runs (x_second x) = [] /\ (exists y, owed = seen (x_first x) ++ y) /\ (x_rest x -> opened (x_second x) -> undisturbed (x_first x) -> seen (x_first x) = owed).
Proof. intros G m exported n shost sguest a d g sid1 sid2 data md md2 x Ok S1 S2 Sn L Nd Nh Rd R. eapply (relay_refused m exported n shost sguest a d g sid1 sid2); eassumption. Qed.
Print Assumptions C73_refused.
Example C73_refused_example : exists x, ex_reach (mkDest 1 3) ex_all ex_no ex_no2 x /\ x_rest x /\ opened (x_second x) /\ undisturbed (x_first x) /\ seen (x_first x) = [VError not_found].
Proof.
  reached (mkDest 1 3) ex_all ex_no ex_no2 (ex_call ++ ex_passed ++ [XSecond MRRecv; XSecond MRAct; XSecond (MTask 0 1); XSecond MPRecv; XSecond MPAct] ++ repeat (XThread 0) 7 ++ XSecond MPAct :: repeat (XThread 0) 3 ++ [XSecond MPAct; XFirst MPRecv; XFirst MPAct] ++ repeat (XFirst (MPStep 0)) 4 ++ [XFirst (MPReturn 0)] ++ repeat (XFirst (MPStep 0)) 3 ++ XFirst MPAct :: repeat (XFirst (MPStep 0)) 3 ++ [XFirst MPAct]).
  split; [split; repeat split; eexists; reflexivity|]. split; [eexists; left; reflexivity|]. split; [|reflexivity]. split; intro Z; repeat (destruct Z as [Z|Z]; [discriminate Z|]); exact Z.
Qed.

(** C73: back-pressure reaches through: what the source in the exporting guest has been asked for is at most what the host passed on, that is at most what
    reached the host, and that is at most what the calling guest sent.  Nothing in between makes up demand. *)
Theorem C73_credit : forall G (m : mesh) (exported : nat -> ikind -> list (option G)) n shost sguest a d g sid1 sid2 data md md2 x,
  RelaySpec.mesh_ok m exported n -> sid1 < 2^31 -> sid2 < 2^31 -> CallSpec.sendable data md ->
  8 <= len md -> nth_error (m_tabs m a RS) (N.to_nat (number4 md)) = Some (Some d) -> redirect d (Some md) = Ret (Some md2) ->
  xreach m exported shost sguest a d g sid1 sid2 data md md2 x ->
  arrived (x_second x) <= total (c_ptr (x_second x)) /\ total (c_ptr (x_second x)) <= arrived (x_first x) /\ arrived (x_first x) <= total (c_ptr (x_first x)).
Proof. intros G m exported n shost sguest a d g sid1 sid2 data md md2 x Ok S1 S2 Sn L Nd Rd R. eapply (relay_credit m exported n shost sguest a d g sid1 sid2); eassumption. Qed.
Print Assumptions C73_credit.
Definition ex_subscribed : list xmove := XFirst (MPCall 1 FSubscribe) :: repeat (XFirst (MPStep 1)) 4.
Definition ex_ask (k : Z) : list xmove := XFirst (MPCall 1 (FRequest k)) :: repeat (XFirst (MPStep 1)) 5.
Example C73_credit_example : exists x, ex_reach ex_dest ex_hand ex_md ex_md2 x /\ arrived (x_second x) = 5 /\ total (c_ptr (x_second x)) = 8 /\ arrived (x_first x) = 8 /\ total (c_ptr (x_first x)) = 8.
Proof.
  reached ex_dest ex_hand ex_md ex_md2 (ex_subscribed ++ ex_ask 5 ++ ex_ask 3 ++ ex_passed ++ ex_started ++ [XFirst MRRecv; XFirst MRAct; XTask 0 2] ++ repeat (XThread 2) 4 ++ repeat (XThread 4) 2). repeat split; reflexivity.
Qed.

(** Refuted: that the calling guest can cancel.  The host of the calling guest takes its Cancel frame for the end of an input there is none of, and panics
    in its dispatcher; the source is not told. *)
Theorem C73_cancel_refuted : exists x, ex_reach ex_dest ex_all ex_md ex_md2 x /\ nth_error (c_rths (x_first x)) 0 = Some [RNetDo RNComplete; RO FUser] /\
  do_move Guest Host (RelayModel.relay_tbl ex_mesh ex_exported 0 StreamIdModel.Client) (RelayModel.relay_tbl ex_mesh ex_exported 0 StreamIdModel.Server) true false ex_all 5 [1; 2] ex_md (x_first x) (MRStep 0) = None /\
  ~ In (PV VCancelSrc) (c_ptr (x_second x)).
Proof.
  reached ex_dest ex_all ex_md ex_md2 (ex_call ++ ex_passed ++ ex_started ++ ex_item ++ XFirst (MPCall 1 FluxModel.FCancel) :: repeat (XFirst (MPStep 1)) 3 ++ [XFirst MRRecv; XFirst MRAct]). split; [reflexivity|]. split; [reflexivity|]. intro Z; repeat (destruct Z as [Z|Z]; [discriminate Z|]); exact Z.
Qed.
Print Assumptions C73_cancel_refuted.
