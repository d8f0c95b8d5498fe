(** Properties C37 and C38. *)
From Coq Require Import List NArith Lia.
From Verif Require Import Base BaseLemmas FramesModel FramesSpec BatchSpec TcpModel TcpSpec TcpProofs TcpScan TcpReads TcpWrites TcpEnd TcpAlias TcpStall.
Import ListNotations.
Open Scope N_scope.

(** C37: for bytes of any kind, what is read is a function of the bytes alone; [reads] determines it. *)
Theorem C37_stream : forall chunks fin fs e, no_stall chunks -> wf (concat chunks) ->
  (reads_all (mkReader chunks fin false) fs e <-> reads fin (concat chunks) fs e).
Proof. exact stream_iff. Qed.
Print Assumptions C37_stream.
Theorem C37_stream_total : forall chunks fin, no_stall chunks -> wf (concat chunks) ->
  exists fs e, reads fin (concat chunks) fs e /\ reads_all (mkReader chunks fin false) fs e.
Proof. exact stream_read. Qed.
Print Assumptions C37_stream_total.
Theorem C37_stream_unique : forall fin bs fs e fs' e', reads fin bs fs e -> reads fin bs fs' e' -> fs = fs' /\ e = e'.
Proof. exact reads_unique. Qed.
Print Assumptions C37_stream_unique.
(** A cancel frame, a frame of unknown type and more, in pieces of one byte and in pieces of seven. *)
Definition mixed : bytes := [0;0;6; 0;0;0;5; 36;0; 0;0;7; 0;0;0;5; 4;0; 1; 0;0].
Fixpoint pieces (fuel n : nat) (bs : bytes) : list bytes := match fuel, bs with S k, _ :: _ => firstn n bs :: pieces k n (skipn n bs) | _, _ => [] end.
Example C37_stream_example : concat (pieces 30 1 mixed) = mixed /\ concat (pieces 30 7 mixed) = mixed
  /\ start_loop 30 new_scanner (mkReader (pieces 30 1 mixed) EOF false) = Some ([FCancel 5], Returns (Some UnknownFrame))
  /\ start_loop 30 new_scanner (mkReader (pieces 30 7 mixed) EOF false) = Some ([FCancel 5], Returns (Some UnknownFrame)).
Proof. vm_compute. auto. Qed.

(** C37: a connection that returns nothing a hundred and one times in a row is read as one that ends there with NoProgress. *)
Theorem C37_stall : forall chunks post fin fs e, no_stall chunks -> wf (concat chunks) ->
  (reads_all (mkReader (chunks ++ repeat [] 101 ++ post) fin false) fs e <-> reads NoProgress (concat chunks) fs e).
Proof. exact stall_proof. Qed.
Print Assumptions C37_stall.
Example C37_stall_example : start_loop 60 new_scanner (mkReader ([batch [FCancel 3]] ++ repeat [] 101 ++ [batch [FCancel 5]]) EOF false) = Some ([FCancel 3], Returns (Some NoProgress)).
Proof. vm_compute. reflexivity. Qed.

(** C37: frames sent are the frames read, however the bytes arrive; what is left of a frame cut off delivers nothing. *)
Theorem C37_frames : forall fs tail chunks fin, Forall sendable fs -> incomplete tail -> concat chunks = batch fs ++ tail -> wf (concat chunks) -> no_stall chunks ->
  reads_all (mkReader chunks fin false) (map on_wire fs) (Returns (visible fin)).
Proof. exact frames_read. Qed.
Print Assumptions C37_frames.
Definition small_payload : frame := FPayload {| pf_stream_id := 3; pf_metadata := [1]; pf_data := [2; 3]; pf_follows := false; pf_complete := false; pf_next := true |}.
Example C37_frames_example : start_loop 60 new_scanner (mkReader (pieces 60 5 (batch [small_payload; FRequestN 3 9; FCancel 3] ++ [0; 0; 9; 1])) (ConnErr true) false)
  = Some ([small_payload; FRequestN 3 9; FCancel 3], Returns None).
Proof. vm_compute. reflexivity. Qed.

(** C37: if the connection returns its last bytes together with its error (package io allows it), some frames may be lost, but
    only from the last piece. *)
Theorem C37_early_error : forall chunks last fin, no_stall (chunks ++ [last]) -> wf (concat (chunks ++ [last])) ->
  exists fs e, reads_all (mkReader (chunks ++ [last]) fin true) fs e
    /\ (forall fin0 fs0 e0, reads fin0 (concat (chunks ++ [last])) fs0 e0 -> prefix fs fs0)
    /\ (forall fin1 fs1 e1, reads fin1 (concat chunks) fs1 e1 -> prefix fs1 fs).
Proof. exact early_error. Qed.
Print Assumptions C37_early_error.
Theorem C37_early_error_refuted : reads EOF (batch [FCancel 3; FCancel 5]) [FCancel 3; FCancel 5] (Returns None)
  /\ reads_all (mkReader [batch [FCancel 3]; batch [FCancel 5]] EOF true) [FCancel 3] (Returns None).
Proof.
  split; [|apply (reads_all_run 30); vm_compute; reflexivity].
  pose proof (reads_batch EOF [FCancel 3; FCancel 5] []) as H. rewrite app_nil_r in H. apply H; [|exact nil_incomplete].
  repeat apply Forall_cons; try apply Forall_nil; split; reflexivity.
Qed.
Print Assumptions C37_early_error_refuted.

(** C37: sending and reading.  With a connection that breaks after any number of bytes, the sends reporting success are exactly those whose
    frames are read. *)
Theorem C37_end_to_end : forall limit fs, Forall sendable fs -> wf (batch fs) ->
  exists pre post w', fs = pre ++ post
    /\ tcp_sends (new_writer (mkSink [] limit)) fs = Ret (Some (repeat true (length pre) ++ repeat false (length post), w'))
    /\ (limit = None -> post = [])
    /\ forall chunks fin, concat chunks = concat (k_written (w_sink w')) -> no_stall chunks -> reads_all (mkReader chunks fin false) (map on_wire pre) (Returns (visible fin)).
Proof. exact end_to_end_proof. Qed.
Print Assumptions C37_end_to_end.
Example C37_end_to_end_example :
  tcp_sends (new_writer (mkSink [] (Some 30))) [small_payload; FCancel 3; FRequestN 3 7; FCancel 3]
  = Ret (Some ([true; true; false; false], mkWriter [3; 32; 0; 0; 0; 0; 7] 8192 false (mkSink [framed small_payload; framed (FCancel 3); [0;0;10;0;0;0]] (Some 0)))).
Proof. vm_compute. reflexivity. Qed.

(** C37: what arrives is the frames one behind the other, up to the limit; a send succeeds exactly if its frame is within. *)
Theorem C37_writes : forall limit fs, Forall sendable fs ->
  exists oks w', tcp_sends (new_writer (mkSink [] limit)) fs = Ret (Some (oks, w')) /\ concat (k_written (w_sink w')) = cut limit (batch fs) /\ length oks = length fs
    /\ forall pre f post, fs = pre ++ f :: post -> (nth (length pre) oks false = true <-> within limit (len (batch (pre ++ [f])))).
Proof. exact sends_proof. Qed.
Print Assumptions C37_writes.

(** C37: frames of 16 MiB or more panic. *)
Theorem C37_oversize : forall w f, frame_in_range f -> 2^24 <= len (wire f) -> tcp_send w f = Panic.
Proof. exact oversize_proof. Qed.
Print Assumptions C37_oversize.
Definition big_frame : frame := FPayload {| pf_stream_id := 3; pf_metadata := []; pf_data := repeat 0 (N.to_nat (2^24)); pf_follows := false; pf_complete := false; pf_next := true |}.
Example C37_oversize_example : frame_in_range big_frame /\ 2^24 <= len (wire big_frame).
Proof.
  unfold big_frame. set (d := repeat 0 (N.to_nat (2^24))). assert (L : len d = 2^24) by (unfold d; rewrite len_repeat, N2Nat.id; reflexivity). clearbody d.
  split; [split; [reflexivity|cbn [pf_metadata pf_data]; unfold fits32; rewrite L; reflexivity]|].
  unfold wire. cbn [pf_data pf_metadata]. rewrite !len_app, L. lia.
Qed.

(** C37, concurrent senders: two goroutines sending a frame each can make the bytes unreadable. *)
Theorem C37_concurrent_refuted : exists w, send_steps (new_writer (mkSink [] None), [new_sender (FCancel 1); new_sender (FCancel 3)]) (w, [mkSender (FCancel 1) []; mkSender (FCancel 3) []])
  /\ reads_all (mkReader (k_written (w_sink w)) EOF false) [] (Returns (Some UnknownFrame)).
Proof.
  set (a := FCancel 1). set (b := FCancel 3).
  pose (w0 := new_writer (mkSink [] None)).
  pose (run := fun w f o => match do_op w f o with Ret (Some (_, w')) => w' | _ => w end).
  pose (w1 := run w0 a OpLength). pose (w2 := run w1 b OpLength). pose (w3 := run w2 a OpBody). pose (w4 := run w3 b OpBody). pose (w5 := run w4 a OpFlush). pose (w6 := run w5 b OpFlush).
  exists w6. split; [|apply (reads_all_run 30); vm_compute; reflexivity].
  assert (S1 : send_step (w0, [new_sender a; new_sender b]) (w1, [mkSender a [OpBody; OpFlush]; new_sender b]))
    by (apply (Send_step w0 [] a OpLength [OpBody; OpFlush] [new_sender b] true w1); vm_compute; reflexivity).
  assert (S2 : send_step (w1, [mkSender a [OpBody; OpFlush]; new_sender b]) (w2, [mkSender a [OpBody; OpFlush]; mkSender b [OpBody; OpFlush]]))
    by (apply (Send_step w1 [mkSender a [OpBody; OpFlush]] b OpLength [OpBody; OpFlush] [] true w2); vm_compute; reflexivity).
  assert (S3 : send_step (w2, [mkSender a [OpBody; OpFlush]; mkSender b [OpBody; OpFlush]]) (w3, [mkSender a [OpFlush]; mkSender b [OpBody; OpFlush]]))
    by (apply (Send_step w2 [] a OpBody [OpFlush] [mkSender b [OpBody; OpFlush]] true w3); vm_compute; reflexivity).
  assert (S4 : send_step (w3, [mkSender a [OpFlush]; mkSender b [OpBody; OpFlush]]) (w4, [mkSender a [OpFlush]; mkSender b [OpFlush]]))
    by (apply (Send_step w3 [mkSender a [OpFlush]] b OpBody [OpFlush] [] true w4); vm_compute; reflexivity).
  assert (S5 : send_step (w4, [mkSender a [OpFlush]; mkSender b [OpFlush]]) (w5, [mkSender a []; mkSender b [OpFlush]]))
    by (apply (Send_step w4 [] a OpFlush [] [mkSender b [OpFlush]] true w5); vm_compute; reflexivity).
  assert (S6 : send_step (w5, [mkSender a []; mkSender b [OpFlush]]) (w6, [mkSender a []; mkSender b []]))
    by (apply (Send_step w5 [mkSender a []] b OpFlush [] [] true w6); vm_compute; reflexivity).
  repeat (eapply Sends_more; [|eassumption]). apply Sends_none.
Qed.
Print Assumptions C37_concurrent_refuted.

(** C38: a frame is intact when it has just been read. *)
Theorem C38_at_once : forall r s c q seen fuel l s' c', tcp_steps (tcp_init r) (mkTcp s c q seen) -> tcp_read fuel s c = Some (Ret l, s', c') ->
  observe (memory s') l = lf_frame l.
Proof. exact at_once_proof. Qed.
Print Assumptions C38_at_once.

(** C38: as long as no more than 4096 bytes arrive in all, no frame changes, whatever the schedule. *)
Theorem C38_small : forall r t f g, len (concat (r_chunks r)) <= 4096 -> tcp_steps (tcp_init r) t -> In (f, g) (t_seen t) -> f = g.
Proof. exact small_proof. Qed.
Print Assumptions C38_small.

(** C38 in general: a queued frame can hold other bytes by the time it is handled than it was sent with. *)
Definition frame_a : frame := FPayload {| pf_stream_id := 3; pf_metadata := []; pf_data := repeat 65 5000; pf_follows := false; pf_complete := false; pf_next := true |}.
Definition frame_b : frame := FPayload {| pf_stream_id := 5; pf_metadata := []; pf_data := repeat 66 100; pf_follows := false; pf_complete := false; pf_next := true |}.
Definition hazard : reader := mkReader [framed frame_a; framed frame_b] EOF false.
Definition after_read (t : tcp_state) : tcp_state :=
  match tcp_read 10 (t_scan t) (t_conn t) with Some (Ret l, s', r') => mkTcp s' r' (t_queue t ++ [l]) (t_seen t) | _ => t end.
Definition after_handle (t : tcp_state) : tcp_state :=
  match t_queue t with l :: q => mkTcp (t_scan t) (t_conn t) q (t_seen t ++ [(lf_frame l, observe (memory (t_scan t)) l)]) | [] => t end.
Lemma read_steps : forall t, match tcp_read 10 (t_scan t) (t_conn t) with Some (Ret _, _, _) => True | _ => False end -> tcp_step t (after_read t).
Proof.
  intros [s r q seen] H. unfold after_read. cbn [t_scan t_conn t_queue t_seen] in *. destruct (tcp_read 10 s r) as [[[[l|e|] s'] r']|] eqn:E; try contradiction.
  apply (Step_read s r q seen 10 l s' r' E).
Qed.
Lemma handle_steps : forall t, t_queue t <> [] -> tcp_step t (after_handle t).
Proof. intros [s r [|l q] seen] H; cbn [t_queue] in H; [contradiction|]. apply Step_handle. Qed.
Theorem C38_refuted : exists t g, concat (r_chunks hazard) = batch [frame_a; frame_b] /\ Forall sendable [frame_a; frame_b] /\ tcp_steps (tcp_init hazard) t
  /\ t_seen t = [(frame_a, g)] /\ g <> frame_a.
Proof.
  exists (after_handle (after_read (after_read (tcp_init hazard)))).
  exists (FPayload {| pf_stream_id := 3; pf_metadata := []; pf_data := repeat 66 100 ++ repeat 65 4900; pf_follows := false; pf_complete := false; pf_next := true |}).
  split; [reflexivity|]. split; [|split; [|split]].
  - repeat apply Forall_cons; try apply Forall_nil; split; try (vm_compute; reflexivity); split; vm_compute; reflexivity.
  - eapply Steps_more; [eapply Steps_more; [eapply Steps_more; [apply Steps_none|]|]|].
    + apply read_steps. vm_compute. exact Logic.I.
    + apply read_steps. vm_compute. exact Logic.I.
    + apply handle_steps. assert (E : (length (t_queue (after_read (after_read (tcp_init hazard)))) = 2)%nat) by (vm_compute; reflexivity).
      intros Z. rewrite Z in E. discriminate E.
  - vm_compute. reflexivity.
  - intros E. assert (X : forall p q, FPayload p = FPayload q -> pf_data p = pf_data q) by congruence. apply X in E. cbn [pf_data] in E.
    apply (f_equal (fun l => nth 0 l 0)) in E. discriminate E.
Qed.
Print Assumptions C38_refuted.
