(** C77: a string decoded from a payload that a host has received. *)
From Coq Require Import List Bool Arith Lia NArith.
From Verif Require Import Base FramesModel MsgpackModel RecycleModel RecycleSpec RecycleProofs RecycleProps AliasModel AliasSpec AliasProofs.
Import ListNotations.
Open Scope nat_scope.

(** A decoded string (byte array) is not a copy: it is a part of the slice it was decoded from - the part before the decoder's new offset. *)
Theorem C77_part : forall read s w off b d v off', returns_bytes read -> read (mkDR (reads s w) off false) = Ret (b, d) -> at_slice read s w off = Some (v, off') ->
  reads s v = b /\ v_array v = v_array w /\ v_off w <= v_off v /\ v_len v = length b /\ v_off v + v_len v = v_off w + N.to_nat off' /\ v_off v + v_len v <= v_off w + v_len w /\ off' = d_off d.
Proof.
  intros read s w off b d v off' H E A. destruct (at_slice_inv _ _ _ _ _ _ _ _ H E A) as (o & -> & L & B & -> & O). assert (Lw := reads_le s w).
  split; [rewrite reads_sub by lia; symmetry; exact B|]. cbn [sub v_array v_off v_len]. repeat split; lia.
Qed.
Print Assumptions C77_part.
(** So, if nobody writes to slices, it reads as decoded for as long as the frame is being handled ... *)
Theorem C77_during : forall read l l' s' w v b, returns_bytes read -> decoded read l w v b -> recycled (l ++ l') s' -> no_pokes (l ++ l') -> current s' w -> reads s' v = b.
Proof.
  intros read l l' s' w v b H (s & off & off' & d & R & Hw & C & E & A) R' N C'. destruct (at_slice_inv _ _ _ _ _ _ _ _ H E A) as (o & -> & L & B & _). assert (Lw := reads_le s w).
  assert (N0 : no_pokes l) by (intros x y z X; apply (N x y z), in_or_app; left; exact X).
  rewrite reads_sub by lia. rewrite (C64_during _ _ R' N w (views_later _ _ _ _ _ R R' Hw) C'), <- (C64_during _ _ R N0 w Hw C). symmetry. exact B.
Qed.
Print Assumptions C77_during.
(** ... and after that it does, or else it reads what a later frame has there. *)
Theorem C77_after : forall read l l' s' w v b, returns_bytes read -> decoded read l w v b -> recycled (l ++ l') s' -> no_pokes (l ++ l') ->
  reads s' v = b \/ exists j d rest, v_frame w < j /\ nth_error (r_sent s') j = Some d /\ reads s' v = slice (d ++ rest) (v_off v) (length b).
Proof.
  intros read l l' s' w v b H (s & off & off' & d & R & Hw & C & E & A) R' N. destruct (at_slice_inv _ _ _ _ _ _ _ _ H E A) as (o & -> & L & B & _). assert (Lw := reads_le s w).
  assert (N0 : no_pokes l) by (intros x y z X; apply (N x y z), in_or_app; left; exact X). rewrite reads_sub by lia.
  destruct (C64_after _ _ R' N w (views_later _ _ _ _ _ R R' Hw)) as [Q|(j & dd & rest & J & S & Q)]; rewrite Q.
  - left. rewrite <- (C64_during _ _ R N0 w Hw C). symmetry. exact B.
  - right. exists j, dd, rest. split; [exact J|]. split; [exact S|]. cbn [sub v_off]. apply slice_slice. lia.
Qed.
Print Assumptions C77_after.

(** ** What does not hold *)

(** Responses with the strings "abc" and "xyz", as WriteString makes them. *)
Definition response (sid : N) (data : bytes) : bytes := match frame_bytes (FPayload (mkPayload sid [] data false true true)) with Ret bs => bs | _ => [] end.
Definition abc : bytes := [97; 98; 99]%N.
Definition xyz : bytes := [120; 121; 122]%N.
Definition resp_a : bytes := response 2 (163%N :: abc).
Definition resp_b : bytes := response 4 (163%N :: xyz).

(** A caller got "abc" from the first response.  When the second arrives, in the same buffer, the caller's string is "xyz", before recvLoop has even
    looked at the second response. *)
Theorem C77_kept_refuted : exists l l' s' w v, decoded ReadString l w v abc /\ recycled (l ++ l') s' /\ no_pokes (l ++ l') /\ r_sent s' = [resp_a; resp_b] /\ r_handled s' = [resp_a] /\
  frame_parse resp_a = Ret (Some (FPayload (mkPayload 2 [] (v_bytes w) false true true))) /\ reads s' v = xyz.
Proof.
  set (l := [RSend resp_a None 0; RTake; RDeliver 6 4]). set (l' := [RDone; RSend resp_b (Some 0) 0]).
  let v := eval vm_compute in (rruns r_new l) in match v with Some ?s => let v' := eval vm_compute in (rruns r_new (l ++ l')) in match v' with Some ?s' =>
    let w := eval vm_compute in (hd (mkView 0 0 0 [] 0) (r_views s)) in
    exists l, l', s', w, (sub w 1 3); split; [exists s, 0%N; do 2 eexists; split; [vm_compute; reflexivity|]; split; [left; reflexivity|]; split; [split; [discriminate|reflexivity]|]; split; vm_compute; reflexivity|] end end.
  split; [vm_compute; reflexivity|]. split; [intros v off d X; cbn in X; repeat (destruct X as [X|X]; [discriminate X|]); exact X|]. repeat split; vm_compute; reflexivity.
Qed.
Print Assumptions C77_kept_refuted.

(** A byte array in a request, decoded from the second byte on; it stays as it is while the next frame arrives in another buffer and its own frame is handled. *)
Example C77_ex : exists l l' s' w v, decoded ReadByteArray l w v [7; 8; 9]%N /\ recycled (l ++ l') s' /\ no_pokes (l ++ l') /\ current s' w /\ r_sent s' = [req 1 0 [192; 196; 3; 7; 8; 9]%N; resp_b] /\
  v_off v = 20 /\ v_len v = 3 /\ reads s' v = [7; 8; 9]%N.
Proof.
  set (l := [RSend (req 1 0 [192; 196; 3; 7; 8; 9]%N) None 5; RTake; RDeliver 17 6]). set (l' := [RSend resp_b None 0]).
  let v := eval vm_compute in (rruns r_new l) in match v with Some ?s => let v' := eval vm_compute in (rruns r_new (l ++ l')) in match v' with Some ?s' =>
    let w := eval vm_compute in (hd (mkView 0 0 0 [] 0) (r_views s)) in
    exists l, l', s', w, (sub w 3 3); split; [exists s, 1%N; do 2 eexists; split; [vm_compute; reflexivity|]; split; [left; reflexivity|]; split; [split; [discriminate|reflexivity]|]; split; vm_compute; reflexivity|] end end.
  split; [vm_compute; reflexivity|]. split; [intros v off d X; cbn in X; repeat (destruct X as [X|X]; [discriminate X|]); exact X|]. split; [split; [discriminate|reflexivity]|]. repeat split; vm_compute; reflexivity.
Qed.
