(** C35 and C36: frames between host and guest. *)
From Coq Require Import List NArith Bool Lia.
From Verif Require Import Base BaseLemmas FramesModel FramesSpec FramesProofs BatchModel BatchSpec BatchProofs.
Import ListNotations.
Open Scope N_scope.

Definition pay (sid : N) (d : bytes) : frame := FPayload (mkPayload sid [] d false false true).
Definition demo : list frame := [pay 1 [10; 11]; FCancel 3; FRequest (mkRequest 6 5 [7] [8; 9] false true 4)].
Lemma demo_sendable : Forall sendable demo.
Proof. repeat constructor; try discriminate. Qed.

(** C35. A guest handed a batch decodes exactly the frames put in, in order, whatever is behind them in the buffer. *)
Theorem C35_guest : forall fs rest, Forall sendable fs -> len (batch fs) < 2^32 -> GuestSend (batch fs ++ rest) (len (batch fs)) = Ret (map (fun f => Some (on_wire f)) fs).
Proof. exact guest_recovers. Qed.
Print Assumptions C35_guest.
Example C35_guest_ex : len (batch demo) = 39 /\ GuestSend (batch demo ++ [255; 255; 255; 255]) 39 = Ret (map Some demo).
Proof. vm_compute. auto. Qed.

(** A frame sent by a guest reaches the host exactly, if it fits the buffer. *)
Theorem C35_host : forall hb beyond f, sendable f -> 3 + len (wire f) <= len hb ->
  exists hb', doSendFrame hb beyond f = Ret (hb', [wire f]) /\ len hb' = len hb /\ frame_parse (wire f) = Ret (Some (on_wire f)).
Proof. exact guest_sends. Qed.
Print Assumptions C35_host.
Example C35_host_ex : doSendFrame (repeat 9 16) [1; 2] (pay 1 [10; 11]) = Ret ([0; 0; 8; 0; 0; 0; 1; 40; 32; 10; 11; 9; 9; 9; 9; 9], [[0; 0; 0; 1; 40; 32; 10; 11]]).
Proof. vm_compute. reflexivity. Qed.

(** Were a guest to send several frames at once, the host would take each together with everything behind it. *)
Theorem C35_host_batch : forall fs, Forall sendable fs -> hostSend (batch fs) = Ret (suffixes fs).
Proof. exact host_gets. Qed.
Print Assumptions C35_host_batch.
Example C35_host_batch_ex : hostSend (batch [FCancel 3; FCancel 4]) = Ret [[0; 0; 0; 3; 36; 0; 0; 0; 6; 0; 0; 0; 4; 36; 0]; [0; 0; 0; 4; 36; 0]].
Proof. vm_compute. reflexivity. Qed.
Theorem C35_host_batch_refuted : ~ (forall fs bufs, Forall sendable fs -> hostSend (batch fs) = Ret bufs -> map frame_parse bufs = map (fun f => Ret (Some (on_wire f))) fs).
Proof. intro X. specialize (X [pay 1 [10]; FCancel 3] _ ltac:(repeat constructor; discriminate) eq_refl). vm_compute in X. discriminate. Qed.
Print Assumptions C35_host_batch_refuted.

(** A guest's frame that does not fit its 16 KiB buffer is not refused: its end is lost and the host reads what lies behind the buffer instead. *)
Theorem C35_host_too_big_refuted : ~ (forall beyond f hb' bufs, sendable f -> doSendFrame (repeat 0 (N.to_nat 16384)) beyond f = Ret (hb', bufs) -> map frame_parse bufs = [Ret (Some (on_wire f))]).
Proof.
  intro X. assert (S : sendable (pay 1 (repeat 1 (N.to_nat 16384)))) by (split; [split; [reflexivity|apply N.ltb_lt; vm_compute; reflexivity]|apply N.ltb_lt; vm_compute; reflexivity]).
  specialize (X (repeat 7 10) _ _ _ S eq_refl). apply (f_equal (fun l => match l with [Ret (Some (FPayload p))] => nth (N.to_nat 16380) (pf_data p) 0 | _ => 0 end)) in X. vm_compute in X. discriminate.
Qed.
Print Assumptions C35_host_too_big_refuted.

(** C36. Whatever arrives when, the calls of the guest carry all frames that arrived, in order, except those still in the buffer; none
    are there once the loop waits.  No call goes beyond the buffer. *)
Theorem C36_delivers : forall buf es, len buf < 2^24 -> no_close es -> Forall (fun f => sendable f /\ 3 + len (wire f) <= len buf) (arrived es) ->
  exists s groups pending, sendLoop (loop_init buf) es = Ret s /\
    map (fun c => GuestSend (fst c) (snd c)) (l_calls s) = map (fun g => Ret (map (fun f => Some (on_wire f)) g)) groups /\ Forall (fun c => snd c <= len (fst c) /\ len (fst c) = len buf) (l_calls s) /\
    arrived es = concat groups ++ pending /\ (waits es -> pending = []).
Proof. exact loop_delivers. Qed.
Print Assumptions C36_delivers.
(** A buffer of 24 bytes; the third frame fills it exactly, so the buffer is sent without it, and again, empty, before it. *)
Example C36_delivers_ex : match sendLoop (loop_init (repeat 9 24)) [Arrive (FCancel 1); Arrive (pay 2 [1]); Idle; Arrive (pay 3 (repeat 5 15)); Idle] with
  | Ret s => map (fun c => (snd c, GuestSend (fst c) (snd c))) (l_calls s) = [(19, Ret [Some (FCancel 1); Some (pay 2 [1])]); (0, Ret []); (24, Ret [Some (pay 3 (repeat 5 15))])]
  | _ => False end.
Proof. vm_compute. reflexivity. Qed.

(** A frame that does not fit the buffer is never delivered: the host panics, or calls the guest with a position beyond the
    buffer, which panics there. *)
Theorem C36_too_big : forall buf es f, 3 <= len buf < 2^24 -> no_close es -> Forall (fun f => sendable f /\ 3 + len (wire f) <= len buf) (arrived es) -> sendable f -> len buf < 3 + len (wire f) ->
  sendLoop (loop_init buf) (es ++ [Arrive f; Idle]) = Panic \/
  exists s cs b, sendLoop (loop_init buf) (es ++ [Arrive f; Idle]) = Ret s /\ l_calls s = cs ++ [(b, 3 + len (wire f))] /\ len b < 3 + len (wire f) /\ GuestSend b (3 + len (wire f)) = Panic.
Proof. exact too_big_proof. Qed.
Print Assumptions C36_too_big.
Example C36_too_big_ex : match sendLoop (loop_init (repeat 9 24)) [Arrive (pay 3 (repeat 5 16)); Idle] with Ret s => map snd (l_calls s) = [0; 25] | _ => False end /\
  sendLoop (loop_init (repeat 9 8)) [Arrive (pay 3 (repeat 5 16)); Idle] = Panic.
Proof. vm_compute. auto. Qed.

(** Closing an instance is safe only while the loop waits: right after a frame, the inner loop receives nil from the closed channel and panics. *)
Theorem C36_close : forall buf es, len buf < 2^24 -> no_close es -> Forall (fun f => sendable f /\ 3 + len (wire f) <= len buf) (arrived es) ->
  (sendLoop (loop_init buf) (es ++ [Closed]) = Panic <-> exists es' f, es = es' ++ [Arrive f]).
Proof. exact close_proof. Qed.
Print Assumptions C36_close.
Example C36_close_ex : sendLoop (loop_init (repeat 9 24)) [Arrive (FCancel 1); Closed] = Panic /\ sendLoop (loop_init (repeat 9 24)) [Arrive (FCancel 1); Idle; Closed] <> Panic.
Proof. vm_compute. split; [reflexivity|discriminate]. Qed.
(** Once the loop has seen its channel closed it has ended: the guest is not called again, whatever else there is. *)
Theorem C36_closed : forall buf es s, sendLoop (loop_init buf) (es ++ [Closed]) = Ret s -> l_done s = true /\ forall more, sendLoop (loop_init buf) (es ++ Closed :: more) = Ret s.
Proof.
  intros buf es. generalize (loop_init buf). induction es as [|e es IH]; intros s0 s H; cbn [app sendLoop] in *.
  - destruct (loop_step s0 Closed) as [s1|e|] eqn:S; cbn [bind] in *; [|discriminate H|discriminate H]. injection H as ->.
    assert (D : l_done s = true).
    { unfold loop_step in S. destruct (l_done s0) eqn:D; [injection S as <-; exact D|]. destruct (l_inner s0); [discriminate S|]. injection S as <-. reflexivity. }
    split; [exact D|]. intro more. clear S. induction more as [|e more IH]; [reflexivity|]. cbn [sendLoop]. unfold loop_step at 1. rewrite D. exact IH.
  - destruct (loop_step s0 e) as [s1|x|]; cbn [bind] in *; [|discriminate H|discriminate H]. apply (IH _ _ H).
Qed.
Print Assumptions C36_closed.
Example C36_closed_ex : exists s, sendLoop (loop_init (repeat 9 24)) ([Arrive (FCancel 1); Idle] ++ [Closed]) = Ret s /\ length (l_calls s) = 1%nat.
Proof. eexists. split; [vm_compute; reflexivity|reflexivity]. Qed.
