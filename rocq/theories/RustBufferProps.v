(** C82: frames cross the memory of a guest between Go and Rust. *)
From Coq Require Import List NArith ZArith Lia Bool ZifyBool ZifyNat ZifyN.
From Verif Require Import Base BaseLemmas FramesModel FramesSpec FramesProofs BatchModel BatchSpec BatchProofs CustomSpec RustFramesModel RustFramesSpec RustFramesProofs RustCallModel RustCallProofs RustBufferModel RustBufferSpec RustBufferProofs.
Import ListNotations.
Open Scope N_scope.

Definition pay (sid : N) (d : bytes) : frame := FPayload (mkPayload sid [] d false false true).
Definition rpay (sid : N) (d : bytes) : rframe := RPayloadFrame (mkRPayload sid [] d false false true).

(** ** From a Go host to a Rust guest *)

(** Whatever arrives when, the calls of the guest hand it all frames that arrived, in order, except those still in the buffer; none are there once the loop waits. *)
Theorem C82_go_to_rust : forall buf es, len buf < 2^24 -> no_close es -> Forall (goes_through (len buf)) (arrived es) ->
  exists s groups pending, sendLoop (loop_init buf) es = Ret s /\ arrived es = concat groups ++ pending /\ (waits es -> pending = []) /\
    Forall2 (fun c g => exists rs, send_frame (fst c) (snd c) = Ret (map Handled rs) /\ Forall2 means g rs) (l_calls s) groups.
Proof. exact go_to_rust. Qed.
Print Assumptions C82_go_to_rust.
Example C82_go_to_rust_ex : let es := [Arrive (FCancel 1); Arrive (pay 2 [1]); Idle; Arrive (FError 4 0 [65]); Idle] in
  Forall (goes_through (len (repeat 9 24))) (arrived es) /\
  match sendLoop (loop_init (repeat 9 24)) es with
  | Ret s => map (fun c => send_frame (fst c) (snd c)) (l_calls s) = [Ret [Handled (RCancel 1); Handled (rpay 2 [1])]; Ret [Handled (RErrorFrame 4 0 [65])]]
  | _ => False end.
Proof.
  split; [|vm_compute; reflexivity].
  assert (G : forall f, frame_in_range f -> readable_text f -> (len (wire f) <? 2^24) && (3 + len (wire f) <=? 24) && wfb (wire f) = true -> goes_through (len (repeat 9 24)) f).
  { intros f A B C. apply andb_prop in C as [C D]. apply andb_prop in C as [C E]. split; [split; [exact A|apply N.ltb_lt; exact C]|]. split; [apply N.leb_le; exact E|]. split; [apply wfb_wf; exact D|exact B]. }
  cbn [arrived]. repeat (apply Forall_cons; [apply G; [vm_compute; repeat split|first [exact Logic.I|apply ascii_utf8; reflexivity]|vm_compute; reflexivity]|]). constructor.
Qed.

(** Out of a buffer with anything in it the guest reads exactly the frames laid out from its start, up to the first that ends at or behind the position. *)
Theorem C82_rust_reads_iff : forall buf until bs, wf buf ->
  (read_frames buf until = Some bs <-> exists r, buf = laid bs ++ r /\ Forall (fun b => len b < 2^24) bs /\ until <= len (laid bs) /\ (forall a b l, bs = a ++ b :: l -> len (laid a) < until)).
Proof. exact read_frames_iff. Qed.
Print Assumptions C82_rust_reads_iff.
Example C82_rust_reads_ex : read_frames [0;0;1;7; 0;0;0; 0;0;2;8;9; 5] 9 = Some [[7]; []; [8; 9]] /\ read_frames [0;0;1;7; 0;0;9;1] 8 = None.
Proof. vm_compute. auto. Qed.

(** If they cannot all be read none is handled, and the host gets one error frame for stream 0. *)
Theorem C82_unreadable : forall buf until, wf buf ->
  (send_frame buf until = Ret [Complained unreadable] <-> forall bs r, buf = laid bs ++ r -> Forall (fun b => len b < 2^24) bs -> (forall a b l, bs = a ++ b :: l -> len (laid a) < until) -> len (laid bs) < until).
Proof.
  intros buf until W. unfold send_frame. split.
  - intros H bs r -> F C. destruct (N.ltb_spec (len (laid bs)) until) as [Q|Q]; [exact Q|]. assert (R : read_frames (laid bs ++ r) until = Some bs) by (apply read_frames_iff; [exact W|exists r; auto]). rewrite R in H.
    exfalso. destruct bs as [|b bs]; [discriminate H|]. cbn [decode_all] in H. destruct (rframe_decode b); [| |discriminate H]; destruct (decode_all bs); cbn [bind] in H; discriminate H.
  - intro H. destruct (read_frames buf until) as [bs|] eqn:E; [|reflexivity]. apply read_frames_iff in E; [|exact W]. destruct E as (r & B & F & U & C). specialize (H bs r B F C). lia.
Qed.
Print Assumptions C82_unreadable.
(** The frames in front of one that cannot be read are lost with it; a Go guest handles them before it panics. *)
Theorem C82_good_frames_refuted : exists buf until g, wf buf /\ read_frame buf = Some (wire (pay 2 [1]), g) /\ send_frame buf until = Ret [Complained unreadable] /\ GuestSend buf until = Panic.
Proof. exists (framed (pay 2 [1]) ++ [0;0;9;1]), 14, [0;0;9;1]. split; [apply wfb_wf; vm_compute; reflexivity|]. vm_compute. auto. Qed.
Print Assumptions C82_good_frames_refuted.

(** ** From a Rust guest to a Go host *)

(** Frames that fit the buffer with their lengths reach the host one by one, each as it was sent. *)
Theorem C82_rust_to_go : forall l st, room_ok st -> h_moved st = false -> Forall (fun x => crosses (v_cap (h_vec st)) (fst x)) l ->
  exists st' views, writer st l = Ret (st', views) /\ Forall2 (fun x v => hostSend v = Ret [wire (go_view (fst x))] /\ frame_parse (wire (go_view (fst x))) = Ret (Some (on_wire (go_view (fst x))))) l views.
Proof.
  intros l st R M F. destruct (rust_to_go l st R M F) as (st' & E & _). eexists st', _. split; [exact E|]. clear E. induction F as [|[g e] l (A & B & C) F IH]; [constructor|]. cbn [map fst] in *. constructor; [|exact IH]. cbn [fst].
  assert (S : sendable (go_view g)) by (split; assumption). split; [|exact (sendable_parse _ S)]. rewrite <- batch_one, host_gets by (constructor; [exact S|constructor]). cbn [suffixes]. change (batch []) with (@nil N). rewrite app_nil_r. reflexivity.
Qed.
Print Assumptions C82_rust_to_go.
Example C82_rust_to_go_ex : room_ok (host_buffer 24) /\ match writer (host_buffer 24) [(rpay 2 [1; 2], []); (RCancel 4, []); (rpay 6 (repeat 5 15), [])] with
  | Ret (st, vs) => map hostSend vs = [Ret [wire (pay 2 [1; 2])]; Ret [wire (FCancel 4)]; Ret [wire (pay 6 (repeat 5 15))]] /\ h_moved st = false
  | _ => False end.
Proof. split; [vm_compute; discriminate|]. vm_compute. auto. Qed.

(** The buffer a host asks for takes frames of up to its size less three. *)
Theorem C82_buffer : forall size, 8 <= size -> room_ok (host_buffer size) /\ h_moved (host_buffer size) = false /\ v_cap (h_vec (host_buffer size)) = size.
Proof. intros size L. unfold room_ok, host_buffer. cbn [h_vec h_moved v_bytes v_cap]. rewrite len_repeat. destruct (N.eqb_spec size 0); [lia|]. repeat split; lia. Qed.
Print Assumptions C82_buffer.

(** A frame is seen by the host, whatever else is in the memory, exactly if it fits with its length. *)
Theorem C82_seen_iff : forall st b, room_ok st -> h_moved st = false -> len b < 2^32 ->
  let '(st', size, _) := send_host_frame st [b] in (forall elsewhere, host_sees st' elsewhere size = bytes3 (len b) ++ b) <-> 3 + len b <= v_cap (h_vec st).
Proof.
  intros st b R M L. assert (S := send_one st b R L). destruct (send_host_frame st [b]) as [[st' size] lost]. destruct S as [_ [S|[S|S]]].
  - destruct S as (G & -> & _ & Mv & _ & r & B). split; [intros _; exact G|]. intros _ e. apply (sees_framed st' e b r); [congruence|exact B].
  - destruct S as (G & _ & -> & _ & Mv). split; [|lia]. intro H. specialize (H []). unfold host_sees in H. rewrite Mv in H. change (len []) with 0 in H. destruct (N.leb_spec (3 + len b) 0); [lia|]. discriminate H.
  - destruct S as (G & -> & _ & ->). split; [|lia]. intro H. specialize (H []). unfold host_sees in H. rewrite M in H. destruct (0 <=? _); discriminate H.
Qed.
Print Assumptions C82_seen_iff.
(** A frame larger than the buffer is dropped: the host is called with nothing, and the guest goes on as if it had been sent. *)
Theorem C82_dropped : forall st b elsewhere, room_ok st -> len b < 2^32 -> v_cap (h_vec st) < len b ->
  exists size, send_host_frame st [b] = (st, size, [b]) /\ host_sees st elsewhere size = [] /\ hostSend (host_sees st elsewhere size) = Ret [].
Proof.
  intros st b e R L G. assert (S := send_one st b R L). destruct (send_host_frame st [b]) as [[st' size] lost]. destruct S as [_ [S|[S|S]]]; try lia. destruct S as (_ & -> & -> & ->). exists 0. split; [reflexivity|].
  assert (Q : host_sees st e 0 = []) by (unfold host_sees; destruct (0 <=? _); reflexivity). rewrite Q. split; reflexivity.
Qed.
Print Assumptions C82_dropped.
Example C82_dropped_ex : exists st, send_host_frame (host_buffer 8) [repeat 7 9] = (st, 0, [repeat 7 9]).
Proof. eexists. vm_compute. reflexivity. Qed.

(** A frame that fits the buffer but not with its length makes the guest put its buffer elsewhere without telling the host: from then on the host sees, instead of
    the frames, only what lies at the old place. *)
Theorem C82_moved : forall st b, room_ok st -> len b < 2^32 -> v_cap (h_vec st) < 3 + len b -> len b <= v_cap (h_vec st) ->
  let '(st', size, _) := send_host_frame st [b] in h_moved st' = true /\ (forall elsewhere, exists n, host_sees st' elsewhere size = firstn n elsewhere) /\
  forall l st'' views, writer st' l = Ret (st'', views) -> Forall2 (fun x view => exists n, view = firstn n (snd x)) l views.
Proof.
  intros st b R L G1 G2. assert (S := send_one st b R L). destruct (send_host_frame st [b]) as [[st' size] lost]. destruct S as [_ [S|[S|S]]]; try lia. destruct S as (_ & _ & -> & _ & M).
  split; [exact M|]. split.
  - intro e. unfold host_sees. rewrite M. destruct (_ <=? len e); [eexists; reflexivity|exists 0%nat; reflexivity].
  - intros l st'' views E. exact (proj2 (moved_reads_elsewhere l st' st'' views M E)).
Qed.
Print Assumptions C82_moved.
(** In the buffer of a Go host a payload of 16376 bytes is such a frame.  With zeros at the old place the host sees nothing of it, and crashes on what it sees in place of
    the small frame after it. *)
Theorem C82_fits_refuted : exists l, l = [(rpay 2 (repeat 7 (N.to_nat 16376)), repeat 0 (N.to_nat 20000)); (rpay 4 [1], repeat 0 (N.to_nat 20000))] /\
  Forall (fun x => len (wire (go_view (fst x))) <= 16384) l /\
  match writer (host_buffer 16384) l with
  | Ret (_, [v1; v2]) => forallb (fun b => b =? 0) v1 = true /\ v2 = repeat 0 10 /\ hostSend v2 = Panic
  | _ => False end.
Proof.
  eexists. split; [reflexivity|]. split; [constructor; [apply N.leb_le; vm_compute; reflexivity|constructor; [apply N.leb_le; vm_compute; reflexivity|constructor]]|].
  vm_compute. repeat split.
Qed.
Print Assumptions C82_fits_refuted.

(** ** A Rust host *)

(** What a Go guest sends is read as it was sent. *)
Theorem C82_go_to_rust_host : forall hb beyond f, goes_through (len hb) f ->
  exists hb' g, doSendFrame hb beyond f = Ret (hb', [wire f]) /\ firstn (N.to_nat (3 + len (wire f))) hb' = framed f /\ host_receive (framed f) = Ret (Some g) /\ means f g.
Proof.
  intros hb beyond f (S & L & W & R). destruct (guest_sends hb beyond f S L) as (hb' & E & Lh & _). destruct (decode_wire f S W R) as (g & D & M). exists hb', g. split; [exact E|]. split.
  - unfold doSendFrame in E. assert (S' := S). destruct S' as [Fr Lw]. rewrite skip_be4, (frame_size_wire f Fr) in E.
    assert (P := put_at_step no_error [] hb (bytes3 (len (wire f)))). cbn [app] in P. rewrite len_nil, bytes3_len in P. rewrite P in E by lia. cbn [bind] in E. change (length (bytes3 (len (wire f)))) with 3%nat in E.
    rewrite slice_from_app in E by reflexivity. cbn [bind] in E. set (t := skipn 3 hb) in *. assert (Lt : len t = len hb - 3) by (unfold t; rewrite len_skipn; lia).
    rewrite <- (firstn_skipn (length (wire f)) t) in E. rewrite frame_encode_wire in E; [|exact Fr|rewrite len_firstn, (frame_size_wire f Fr); unfold len in *; lia]. cbn [bind] in E. rewrite firstn_len_app in E by reflexivity.
    destruct (hostSend _) as [bufs| |]; cbn [bind] in E; try discriminate. assert (Q : hb' = bytes3 (len (wire f)) ++ wire f ++ skipn (length (wire f)) t) by congruence. rewrite Q, app_assoc.
    fold (framed f). apply firstn_len_app. assert (X := framed_len f). unfold len in *. lia.
  - split; [|exact M]. unfold host_receive, framed. rewrite <- (app_nil_r (wire f)) at 2. rewrite read_frame_app by apply S. rewrite D. reflexivity.
Qed.
Print Assumptions C82_go_to_rust_host.
Example C82_go_to_rust_host_ex : host_receive (framed (pay 2 [1])) = Ret (Some (rpay 2 [1])).
Proof. vm_compute. reflexivity. Qed.
(** Of several frames sent at once it reads only the first. *)
Theorem C82_several_refuted : exists a b, hostSend (batch [a; b]) = Ret (suffixes [a; b]) /\ host_receive (batch [a; b]) = Ret (Some (rpay 2 [1])) /\ a = pay 2 [1] /\ b = pay 4 [2].
Proof. exists (pay 2 [1]), (pay 4 [2]). vm_compute. auto. Qed.
Print Assumptions C82_several_refuted.

(** A frame it writes is read by the guest, Go or Rust, exactly if it fits the 1024 bytes it told the guest to have. *)
Theorem C82_host_write_iff : forall mem start f mem' n, sendable f -> wf (wire f) -> readable_text f -> wf mem -> start + 1024 <= len mem -> host_write mem start (wire f) = Ret (mem', n) ->
  (GuestSend (guest_buffer mem' start) n = Ret [Some (on_wire f)] <-> 3 + len (wire f) <= 1024) /\
  ((exists g, means f g /\ send_frame (guest_buffer mem' start) n = Ret [Handled g]) <-> 3 + len (wire f) <= 1024) /\
  (1024 < 3 + len (wire f) -> GuestSend (guest_buffer mem' start) n = Panic /\ send_frame (guest_buffer mem' start) n = Ret [Complained unreadable]).
Proof.
  intros mem start f mem' n S W R Wm Lm H. assert (Lw := proj2 S). destruct (host_writes mem start (wire f) mem' n Lw H) as (-> & L' & _ & Sk). unfold guest_buffer. rewrite Sk. clear Sk. fold (framed f). set (tail := skipn _ mem).
  destruct (N.leb_spec (3 + len (wire f)) 1024) as [G|G].
  - assert (B : exists r, firstn (N.to_nat told_size) (framed f ++ tail) = batch [f] ++ r /\ 3 + len (wire f) = len (batch [f])).
    { exists (firstn (N.to_nat told_size - length (framed f)) tail). rewrite firstn_app, firstn_all2; [rewrite batch_one; split; [reflexivity|symmetry; apply framed_len]|]. assert (X := framed_len f). unfold len, told_size in *. lia. }
    destruct B as (r & -> & ->). assert (Gs := guest_recovers [f] r ltac:(constructor; [exact S|constructor])). assert (Lb : len (batch [f]) < 2^32) by (rewrite batch_one, framed_len; change (2^32) with 4294967296; change (2^24) with 16777216 in Lw; lia).
    specialize (Gs Lb). destruct (guest_reads (3 + len (wire f)) [f] r) as (gs & E & F2); [constructor; [split; [exact S|split; [lia|split; assumption]]|constructor]|].
    rewrite batch_one, framed_len in *. split; [split; [intros _; exact G|intros _; exact Gs]|]. split; [|lia]. split; [intros _; exact G|]. intros _. inversion F2 as [|? g ? gs' M F3]; subst. inversion F3; subst. exists g. split; [exact M|exact E].
  - set (gb := firstn _ _). assert (Lf := framed_len f).
    assert (Gb : exists r, gb = bytes3 (len (wire f)) ++ r /\ len r = 1021).
    { exists (firstn (N.to_nat 1021) (wire f ++ tail)). unfold gb, framed. rewrite <- app_assoc. change (N.to_nat told_size) with (length (bytes3 (len (wire f))) + N.to_nat 1021)%nat. rewrite firstn_app_2. split; [reflexivity|]. rewrite len_firstn, len_app. lia. }
    destruct Gb as (r & -> & Lr).
    assert (Gs : GuestSend (bytes3 (len (wire f)) ++ r) (3 + len (wire f)) = Panic).
    { unfold GuestSend. cbn [guest_loop]. destruct (N.ltb_spec 0 (3 + len (wire f))); [|lia]. rewrite slice_from_app by reflexivity. cbn [bind]. change (firstn 3 (bytes3 (len (wire f)) ++ r)) with (bytes3 (len (wire f))).
      replace (unbe (0 :: bytes3 (len (wire f)))) with (len (wire f)) by (symmetry; change (0 :: bytes3 (len (wire f))) with ([0] ++ bytes3 (len (wire f))); rewrite <- (unbe_bytes3 (len (wire f)) Lw) at 2; reflexivity).
      unfold slice_from. rewrite len_app, bytes3_len, Lr. destruct (N.leb_spec (3 + len (wire f)) (3 + 1021)); [lia|reflexivity]. }
    assert (Rs : send_frame (bytes3 (len (wire f)) ++ r) (3 + len (wire f)) = Ret [Complained unreadable]).
    { unfold send_frame, read_frames. cbn [read_loop]. destruct (N.ltb_spec 0 (3 + len (wire f))); [|lia]. unfold read_frame. rewrite split_to_slices, slice_to_app, slice_from_app by reflexivity. cbn [bind]. rewrite unbe_bytes3 by exact Lw.
      unfold split_to. rewrite Lr. destruct (N.leb_spec (len (wire f)) 1021); [lia|reflexivity]. }
    rewrite Gs, Rs. split; [split; [discriminate|lia]|]. split; [split; [|lia]|auto]. intros (g & _ & X). discriminate X.
Qed.
Print Assumptions C82_host_write_iff.
(** It refuses frames only beyond 4092 bytes: those in between are written over what follows the guest's buffer. *)
Theorem C82_host_refuses_iff : forall mem start b, len b < 2^24 -> start + 3 + len b <= len mem -> (host_write mem start b = Panic <-> 4092 < 3 + len b).
Proof. exact host_write_iff. Qed.
Print Assumptions C82_host_refuses_iff.
Theorem C82_overrun_refuted : exists mem mem' n, len mem = 4000 /\ host_write mem 16 (wire (pay 2 (repeat 7 (N.to_nat 2000)))) = Ret (mem', n) /\
  nth (N.to_nat (16 + 1024)) mem 0 = 0 /\ nth (N.to_nat (16 + 1024)) mem' 0 = 7.
Proof. exists (repeat 0 (N.to_nat 4000)). eexists _, _. split; [vm_compute; reflexivity|]. split; [vm_compute; reflexivity|]. vm_compute. auto. Qed.
Print Assumptions C82_overrun_refuted.

(** A Rust host starts exactly the modules whose __wasmrs_init has no result: those made with the Rust library, and none made with the Go library. *)
Theorem C82_starts_iff : forall s, rust_host_starts s = true <-> s = rust_init.
Proof.
  intros [a b]. unfold rust_host_starts, rust_init, valtypes_eqb. cbn [fst snd]. split; [|intro H; injection H as -> ->; reflexivity]. intro H. apply andb_prop in H as [A B]. apply Nat.eqb_eq in A. apply Nat.eqb_eq in B.
  destruct b; [|discriminate B]. destruct a as [|[] [|[] [|[] [|]]]]; try discriminate A. reflexivity.
Qed.
Print Assumptions C82_starts_iff.
Theorem C82_start_refuted : rust_host_starts go_init = false.
Proof. reflexivity. Qed.
Print Assumptions C82_start_refuted.
