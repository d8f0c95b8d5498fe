(** C64: what becomes of the bytes of a frame a host has received. *)
From Coq Require Import List Bool Arith Lia NArith.
From Verif Require Import Base FramesModel RecycleModel RecycleSpec RecycleProofs.
Import ListNotations.
Open Scope nat_scope.

(** If slices are written to only while their frame is being handled, the frames handled are those the guest sent, in order, and the rest is in the channel. *)
Theorem C64_handled : forall l s, recycled l s -> timely l -> exists rest, r_sent s = r_handled s ++ rest /\ length rest = length (r_chan s).
Proof. intros l s R T. exists (map (contents s) (r_chan s)). split; [exact (o_sent _ (recycled_rinv l s R T))|apply map_length]. Qed.
Print Assumptions C64_handled.

(** If nobody writes to slices, a slice handed on is part of the frame it is of ... *)
Theorem C64_slice : forall l s, recycled l s -> no_pokes l -> forall w, In w (r_views s) ->
  exists d, nth_error (r_handled s) (v_frame w) = Some d /\ v_off w + v_len w <= length d /\ v_bytes w = slice d (v_off w) (v_len w).
Proof.
  intros l s R N w Hw. assert (I := recycled_rinv l s R (no_pokes_timely l N)). destruct (c_views _ (recycled_cinv l s R N) w Hw) as (d & Q1 & Q2). exists d. split; [|exact Q2].
  rewrite (o_sent _ I) in Q1. rewrite nth_error_app1 in Q1 by exact (proj2 (o_views _ I w Hw)). exact Q1.
Qed.
Print Assumptions C64_slice.
(** ... it reads the same for as long as its frame is being handled ... *)
Theorem C64_during : forall l s, recycled l s -> no_pokes l -> forall w, In w (r_views s) -> current s w -> reads s w = v_bytes w.
Proof.
  intros l s R N w Hw [C1 C2]. assert (I := recycled_rinv l s R (no_pokes_timely l N)). assert (C := recycled_cinv l s R N). destruct (r_cur s) as [b|] eqn:Ec; [clear C1|contradiction C1; reflexivity].
  destruct (o_current _ I w b Hw Ec C2) as [n Eb]. destruct (o_cur _ I b Ec) as (a & m & y & Q1 & Q2 & Q3). rewrite Eb in Q1. injection Q1 as <- <-. unfold reads. rewrite Q2.
  destruct (c_arrays _ C _ y Q2) as (d & D1 & D2). destruct (c_views _ C w Hw) as (d' & V1 & V2 & V3). assert (a_frame y = v_frame w) by lia. assert (d' = d) as -> by congruence.
  rewrite V3, <- D2. rewrite slice_firstn by exact V2. reflexivity.
Qed.
Print Assumptions C64_during.
(** ... and after that it reads the same, or else a later frame has been put where it is. *)
Theorem C64_after : forall l s, recycled l s -> no_pokes l -> forall w, In w (r_views s) ->
  reads s w = v_bytes w \/ exists j d rest, v_frame w < j /\ nth_error (r_sent s) j = Some d /\ reads s w = slice (d ++ rest) (v_off w) (v_len w).
Proof.
  intros l s R N w Hw. assert (I := recycled_rinv l s R (no_pokes_timely l N)). assert (C := recycled_cinv l s R N). destruct (o_views _ I w Hw) as [(y & Y1 & Y2 & Y3) _]. unfold reads. rewrite Y1.
  destruct (c_arrays _ C _ y Y1) as (d & D1 & D2). destruct (Nat.eq_dec (a_frame y) (v_frame w)) as [E|E].
  - left. destruct (c_views _ C w Hw) as (d' & V1 & V2 & V3). assert (d' = d) as -> by congruence. rewrite V3, <- D2. rewrite slice_firstn by exact V2. reflexivity.
  - right. exists (a_frame y), d, (skipn (length d) (a_bytes y)). split; [lia|]. split; [exact D1|]. rewrite <- D2 at 1. rewrite firstn_skipn. reflexivity.
Qed.
Print Assumptions C64_after.

(** ** What does not hold *)

(** Two requests of a guest, encoded. *)
Definition to_index (i : N) : bytes := be 4 i ++ be 4 0.
Definition req (sid : N) (index : N) (data : bytes) : bytes :=
  match frame_bytes (FRequest (mkRequest FrameTypeRequestResponse sid (to_index index) data false true 1)) with Ret bs => bs | _ => [] end.
Definition req_a : bytes := req 1 0 [1; 2; 3]%N.
Definition req_b : bytes := req 3 2 [7; 8; 9]%N.

(** The goroutine that handles the first request reads the data of the second. *)
Theorem C64_kept_refuted : exists l s w, recycled l s /\ no_pokes l /\ r_views s = [w] /\ r_sent s = [req_a; req_b] /\ r_handled s = [req_a] /\
  frame_parse req_a = Ret (Some (FRequest (mkRequest FrameTypeRequestResponse 1 (to_index 0) (v_bytes w) false true 1))) /\
  frame_parse req_b = Ret (Some (FRequest (mkRequest FrameTypeRequestResponse 3 (to_index 2) (reads s w) false true 1))) /\ v_bytes w = [1; 2; 3]%N /\ reads s w = [7; 8; 9]%N.
Proof.
  set (l := [RSend req_a None 0; RTake; RDeliver 17 3; RDone; RSend req_b (Some 0) 0]). destruct (rruns r_new l) as [s|] eqn:E; [|vm_compute in E; discriminate E].
  exists l, s. assert (Hw : exists w, r_views s = [w] /\ v_bytes w = [1; 2; 3]%N /\ reads s w = [7; 8; 9]%N /\ r_sent s = [req_a; req_b] /\ r_handled s = [req_a]) by (vm_compute in E; injection E as <-; eexists; vm_compute; repeat split).
  destruct Hw as (w & W1 & W2 & W3 & W4 & W5). exists w. rewrite W2, W3. split; [exact E|]. split; [intros v off d X; cbn in X; repeat (destruct X as [X|X]; [discriminate X|]); exact X|]. repeat split; try assumption; vm_compute; reflexivity.
Qed.
Print Assumptions C64_kept_refuted.
(** A destination of the mesh that rewrites the metadata of the first request - as it does, in a goroutine of its own - sends the second request, waiting in the channel,
    to another handler. *)
Theorem C64_late_refuted : exists l s b, recycled l s /\ r_sent s = [req_a; req_b] /\ r_handled s = [req_a; b] /\ In (RPoke 0 0 (be 4 5)) l /\
  frame_parse req_b = Ret (Some (FRequest (mkRequest FrameTypeRequestResponse 3 (to_index 2) [7; 8; 9]%N false true 1))) /\
  frame_parse b = Ret (Some (FRequest (mkRequest FrameTypeRequestResponse 3 (to_index 5) [7; 8; 9]%N false true 1))).
Proof.
  set (l := [RSend req_a None 0; RTake; RDeliver 9 8; RDone; RSend req_b (Some 0) 0; RPoke 0 0 (be 4 5); RTake]). destruct (rruns r_new l) as [s|] eqn:E; [|vm_compute in E; discriminate E].
  exists l, s. assert (Hb : exists b, r_handled s = [req_a; b] /\ r_sent s = [req_a; req_b] /\ frame_parse b = Ret (Some (FRequest (mkRequest FrameTypeRequestResponse 3 (to_index 5) [7; 8; 9]%N false true 1)))) by (vm_compute in E; injection E as <-; eexists; vm_compute; repeat split).
  destruct Hb as (b & B1 & B2 & B3). exists b. split; [exact E|]. split; [exact B2|]. split; [exact B1|]. split; [do 5 right; left; reflexivity|]. split; [vm_compute; reflexivity|exact B3].
Qed.
Print Assumptions C64_late_refuted.

(** Three frames; the slice of the first is written to in time; its buffer, too small for the second, gets another array; the third takes the one it was in. *)
Definition ex_recycle : list raction := [RSend [1; 2; 3]%N None 1; RTake; RDeliver 1 2; RPoke 0 1 [9]%N; RDone; RSend [4; 5; 6; 7; 8]%N (Some 0) 0; RSend [10]%N None 0; RTake; RDeliver 0 5; RDone; RDrop 0; RTake].
Example C64_ex : exists s w0 w1, recycled ex_recycle s /\ timely ex_recycle /\ r_views s = [w0; w1] /\ reads s w0 = [2; 9]%N /\ reads s w1 = [4; 5; 6; 7; 8]%N /\ v_bytes w0 = [2; 3]%N /\ r_handled s = r_sent s /\ ~ current s w1.
Proof.
  destruct (rruns r_new ex_recycle) as [s|] eqn:E; [|vm_compute in E; discriminate E]. exists s.
  assert (Hw : exists w0 w1, r_views s = [w0; w1] /\ reads s w0 = [2; 9]%N /\ reads s w1 = [4; 5; 6; 7; 8]%N /\ v_bytes w0 = [2; 3]%N /\ r_handled s = r_sent s /\ ~ current s w1).
  { vm_compute in E. injection E as <-. do 2 eexists. split; [reflexivity|]. repeat (split; [reflexivity|]). intros [_ X]. discriminate X. }
  destruct Hw as (w0 & w1 & W). exists w0, w1. split; [exact E|]. split; [|exact W].
  intros pre v off d post s0 w Q R V. unfold ex_recycle in Q. do 3 (destruct pre as [|? pre]; [discriminate Q|]; cbn [app] in Q; injection Q as <- Q). destruct pre as [|? pre].
  - cbn [app] in Q. injection Q as <- <- <- <-. vm_compute in R. injection R as <-. cbn in V. injection V as <-. split; [discriminate|reflexivity].
  - cbn [app] in Q. injection Q as <- Q. do 8 (destruct pre as [|? pre]; [discriminate Q|]; cbn [app] in Q; injection Q as <- Q). destruct pre; discriminate Q.
Qed.
