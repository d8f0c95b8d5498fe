(** Property C57 and supplements to C18, C21 and C52: what ReadTime accepts, the heads of extensions, equality of map keys. *)
From Coq Require Import List NArith ZArith Lia Bool.
From Verif Require Import Base BaseLemmas OperationsModel MsgpackModel MsgpackSpec MsgpackReadSpec MsgpackPropsProofs MsgpackTimeSpec MsgpackTimeProofs.
Import ListNotations.
Open Scope N_scope.

(** C57. ReadTime returns [t] exactly when an item standing for [t] is next - a text the parser of texts takes, or a timestamp - and stands behind it then. *)
Theorem C57_time : forall pt pre tail t d', wf tail -> len pre + len tail < 2^31 ->
  ReadTime pt (mkDR (pre ++ tail) (len pre) false) = Ret (t, d') <->
  exists item rest, time_item pt item t /\ tail = item ++ rest /\ d' = mkDR (pre ++ tail) (len pre + len item) false.
Proof.
  intros pt pre tail t d' W S. pose proof (accepts_time pt pre tail t d' W S) as X. unfold MsgpackIOProofs.at_ in X. rewrite X.
  split; intros (hd & rest & I & -> & ->); exists hd, rest; (split; [exact I|]); (split; [reflexivity|]); rewrite len_app, <- app_assoc; reflexivity.
Qed.
Print Assumptions C57_time.

(** The data of a timestamp stands for one time. *)
Theorem C57_unique : forall data t t', wf data -> stamp data t -> stamp data t' -> t = t'.
Proof.
  intros data t t' W H H'. apply (stamp_iff _ _ W) in H. apply (stamp_iff _ _ W) in H'. rewrite H in H'. clear H W. assert (X : forall x y : gtime, Some x = Some y -> x = y) by congruence. apply X, H'.
Qed.
Print Assumptions C57_unique.

(** The timestamps of a conforming peer: 32 and 64 bits with the length in the tag, 96 bits with a length byte, are all taken. *)
Theorem C57_conforming : forall pt data t pre rest, stamp data t -> wf data -> wf rest ->
  let item := mv_bytes (MExt (if len data =? 12 then Len8 else InTag) 255 data) in len pre + len (item ++ rest) < 2^31 ->
  ReadTime pt (mkDR (pre ++ item ++ rest) (len pre) false) = Ret (t, mkDR (pre ++ item ++ rest) (len pre + len item) false).
Proof.
  intros pt data t pre rest S W Wr item B.
  assert (I : time_item pt item t).
  { right. exists (ext_head (if len data =? 12 then Len8 else InTag) (len data)), 255, data. split; [|auto].
    destruct (stamp_len _ _ S) as [L|[L|L]]; rewrite L; [left; auto|right; left; auto|right; right]. exists 0xc7, [12]. split; [left; reflexivity|]. split; [reflexivity|]. exists FixPos. split; [cbn; lia|reflexivity]. }
  apply C57_time; [|exact B|exists item, rest; auto]. apply wf_app. split; [|exact Wr]. unfold item. cbn [mv_bytes]. apply wf_app. split; [|apply wf_cons; split; [reflexivity|exact W]].
  destruct (stamp_len _ _ S) as [L|[L|L]]; rewrite L; apply wfb_wf; reflexivity.
Qed.
Print Assumptions C57_conforming.

(** The head of an extension is the shortest for its length, and counted so. *)
Theorem C57_heads : forall n, n < 2^32 -> produces (encodeExtLen n) (ext_head (short_ext n) n) /\ (forall k, sizeExtLen n k = u32 (k + len (ext_head (short_ext n) n))) /\
  (forall f, mv_ok (MExt f 0 (repeat 0 (N.to_nat n))) -> len (ext_head (short_ext n) n) <= len (ext_head f n)).
Proof.
  intros n B. destruct (ext_head_writes n B) as [W S]. split; [apply writes_produces, W|]. split; [exact S|].
  intros f (_ & _ & O). unfold len in O. rewrite repeat_length, N2Nat.id in O. unfold short_ext.
  destruct ((n =? 1) || (n =? 2) || (n =? 4) || (n =? 8) || (n =? 16)) eqn:E; [destruct f; cbn [ext_head]; rewrite ?len_cons, ?be_len; cbn; lia|].
  rewrite !orb_false_iff, !N.eqb_neq in E. change (2^8) with 256 in *. change (2^16) with 65536 in *.
  destruct f; cbn [len_limit] in O.
  - cbn [In] in O. lia.
  - change (2^8) with 256 in O. replace (n <? 256) with true by (symmetry; apply N.ltb_lt; lia). apply N.le_refl.
  - change (2^16) with 65536 in O. destruct (n <? 256); cbn [ext_head]; [rewrite !len_cons, !be_len; cbn; lia|]. replace (n <? 65536) with true by (symmetry; apply N.ltb_lt; lia). apply N.le_refl.
  - destruct (n <? 256); [|destruct (n <? 65536)]; cbn [ext_head]; rewrite !len_cons, !be_len; cbn; lia.
Qed.
Print Assumptions C57_heads.

(** "A time in any of the MessagePack formats is read, and nothing else": the length of 16 and 32 bits is not read as such, so that a time announced so is refused,
    while an extension of another type and of 1037 bytes is read as a time, the reader left inside it. *)
Theorem C57_refuted :
  let t96 := be 4 5 ++ be 8 1 in
  stamp t96 (mkTime 1 5) /\ (forall f, f = Len16 \/ f = Len32 -> mv_ok (MExt f 255 t96) /\ exists d, ReadTime (fun _ => None) (new_dr (mv_bytes (MExt f 255 t96))) = Fail (ReadErr, d)) /\
  let other := MExt Len16 9 (repeat 0 1037) in mv_ok other /\ exists d, ReadTime (fun _ => None) (new_dr (mv_bytes other)) = Ret (mkTime 150994944 0, d) /\ d_off d = 7.
Proof.
  cbv zeta. split; [|split; [|split]].
  - apply (stamp96 1 5); [lia|reflexivity|]. split; [cbn [t_sec]; lia|]. split; [reflexivity|]. exists 0%Z. reflexivity.
  - intros f [-> | ->]; (split; [split; [reflexivity|split; [apply wfb_wf; reflexivity|reflexivity]]|]); match goal with |- exists d, ?x = _ => let v := eval vm_compute in x in match v with Fail (_, ?d) => exists d; vm_cast_no_check (eq_refl v) end end.
  - split; [reflexivity|]. split; [apply wfb_wf; vm_compute; reflexivity|vm_compute; reflexivity].
  - match goal with |- exists d, ?x = _ /\ _ => let v := eval vm_compute in x in match v with Ret (_, ?d) => exists d; split; [vm_cast_no_check (eq_refl v)|reflexivity] end end.
Qed.
Print Assumptions C57_refuted.
Example C57_ex : time_item (fun s => Some (mkTime 7 0)) [0xa2; 49; 50] (mkTime 7 0) /\ time_item (fun _ => None) [0xd6; 13; 0; 0; 1; 0] (mkTime 256 0) /\
  stamp (be 8 (1500000000 mod 2^30 * 2^34 + 3)) (mkTime 3 426258176) /\ moment 3 1500000000 (mkTime 4 500000000) /\
  ReadTime (fun _ => None) (new_dr [0xd6; 14; 0; 0; 1; 0]) = Fail (ReadErr, mkDR [0xd6; 14; 0; 0; 1; 0] 2 false).
Proof.
  split; [left; exists [0xa2], [49; 50]; split; [left; exists InTag; split; reflexivity|split; reflexivity]|].
  split; [right; exists [0xd6], 13, [0; 0; 1; 0]; split; [left; split; reflexivity|]; split; [auto|]; split; [reflexivity|]; apply (stamp32 256); [reflexivity|]; split; [cbn [t_sec]; lia|]; split; [reflexivity|]; exists 0%Z; reflexivity|].
  split; [apply stamp64; [reflexivity|reflexivity|]; split; [cbn [t_sec]; lia|]; split; [reflexivity|]; exists 0%Z; reflexivity|].
  split; [split; [cbn [t_sec]; lia|]; split; [reflexivity|]; exists 0%Z; reflexivity|]. vm_compute. reflexivity.
Qed.

(** Keys of a map are the same key (C52) when they are equal as Go values: of the same type and equal, floating-point numbers as numbers. *)
Theorem C52_keys : forall a b, key_eq a b = true <-> same_key a b.
Proof. exact key_iff. Qed.
Print Assumptions C52_keys.
Example C52_keys_ex : same_key (DF64 0) (DF64 (2^63)) /\ ~ same_key (DF64 0x7ff8000000000000) (DF64 0x7ff8000000000000) /\ same_key (DF64 0x7ff0000000000000) (DF64 0x7ff0000000000000) /\
  same_key (DF32 0x3f800000) (DF32 0x3f800000) /\ ~ same_key (DI8 1) (DI16 1).
Proof.
  split; [apply key_iff; vm_compute; reflexivity|]. split; [rewrite <- key_iff; vm_compute; discriminate|]. split; [apply key_iff; vm_compute; reflexivity|]. split; [apply key_iff; vm_compute; reflexivity|]. intros [].
Qed.

(** The errors of a short buffer: in the encoder (checked at the end, C18) and in Skip (C21). *)
Example C18_short_ex : to_bytes true [] [inl PNil] = Fail ErrRange /\ to_bytes false [inl PNil] [inl PNil; inl PNil] = Ret [0xc0] /\
  Skip 9 (new_dr [0xd9; 5; 1]) = Fail (ErrRange, mkDR [0xd9; 5; 1] 2 true).
Proof. vm_compute. repeat split. Qed.
