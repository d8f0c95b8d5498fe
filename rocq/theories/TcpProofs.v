From Coq Require Import List NArith ZArith Lia Bool ZifyBool ZifyNat ZifyN.
From Verif Require Import Base BaseLemmas FramesModel FramesSpec FramesProofs BatchSpec BatchProofs TcpModel TcpSpec.
Import ListNotations.
Open Scope N_scope.

Lemma delimited_len : forall b, len (delimited b) = 3 + len b.
Proof. intros; unfold delimited; rewrite len_app, bytes3_len; reflexivity. Qed.

Lemma delimited_inj : forall a b r t, len a < 2^24 -> len b < 2^24 -> delimited a ++ r = delimited b ++ t -> a = b /\ r = t.
Proof.
  intros a b r t Ha Hb E. unfold delimited in E. rewrite <- !app_assoc in E.
  apply app_eq_len in E; [|rewrite !bytes3_len; reflexivity]. destruct E as [E1 E2].
  assert (L : len a = len b) by (rewrite <- (unbe_bytes3 (len a) Ha), <- (unbe_bytes3 (len b) Hb), E1; reflexivity).
  apply app_eq_len in E2; assumption.
Qed.

Lemma incomplete_prefix : forall a b, incomplete (a ++ b) -> incomplete a.
Proof. intros a b H body rest L E. apply (H body (rest ++ b) L). rewrite E, app_assoc; reflexivity. Qed.

Lemma bytes3_of : forall b0 b1 b2, b0 < 256 -> b1 < 256 -> b2 < 256 -> bytes3 (N.shiftl b0 16 + N.shiftl b1 8 + b2) = [b0; b1; b2].
Proof.
  intros b0 b1 b2 H0 H1 H2. rewrite !N.shiftl_mul_pow2. change (2^16) with 65536. change (2^8) with 256. unfold bytes3.
  assert (E0 : (b0 * 65536 + b1 * 256 + b2) / 65536 = b0) by (symmetry; apply (N.div_unique _ _ _ (b1 * 256 + b2)); lia).
  assert (E1 : (b0 * 65536 + b1 * 256 + b2) / 256 = b0 * 256 + b1) by (symmetry; apply (N.div_unique _ _ _ b2); lia).
  rewrite E0, E1. rewrite (N.mod_small b0) by lia.
  assert (E2 : (b0 * 256 + b1) mod 256 = b1) by (symmetry; apply (N.mod_unique _ _ b0); lia).
  assert (E3 : (b0 * 65536 + b1 * 256 + b2) mod 256 = b2) by (symmetry; apply (N.mod_unique _ _ (b0 * 256 + b1)); lia).
  rewrite E2, E3; reflexivity.
Qed.

Lemma doSplit_cases : forall data, wf data ->
  (exists body rest, data = delimited body ++ rest /\ 0 < len body < 2^24 /\ doSplit data false = Ret (3 + len body, Some (3 + len body)))
  \/ (exists rest, data = delimited [] ++ rest /\ doSplit data false = Fail InvalidFrameLength)
  \/ (incomplete data /\ len data < 2^24 + 2 /\ doSplit data false = Ret (0, None)).
Proof.
  intros data W. unfold doSplit. change lengthFieldSize with 3.
  destruct data as [|b0 [|b1 [|b2 t]]].
  1-3: right; right; split; [intros body rest _ E; apply (f_equal len) in E; rewrite len_app, delimited_len, ?len_cons, ?len_nil in E; lia | split; [rewrite ?len_cons, ?len_nil; lia | reflexivity]].
  rewrite !len_cons. replace (1 + (1 + (1 + len t)) <? 3) with false by (symmetry; apply N.ltb_ge; lia).
  unfold ReadUint24ToInt. apply wf_cons in W; destruct W as [H0 W]; apply wf_cons in W; destruct W as [H1 W]; apply wf_cons in W; destruct W as [H2 W].
  pose proof (bytes3_of b0 b1 b2 H0 H1 H2) as B.
  set (L := N.shiftl b0 16 + N.shiftl b1 8 + b2) in *.
  assert (LB : L < 2^24) by (unfold L; rewrite !N.shiftl_mul_pow2; change (2^16) with 65536; change (2^8) with 256; change (2^24) with 16777216; lia).
  clearbody L. change (b0 :: b1 :: b2 :: t) with ([b0; b1; b2] ++ t). rewrite <- B.
  destruct (L <? 1) eqn:Z.
  - right; left. exists t. assert (L = 0) by lia. subst L. split; reflexivity.
  - destruct (L + 3 <=? 1 + (1 + (1 + len t))) eqn:F.
    + left. exists (firstn (N.to_nat L) t), (skipn (N.to_nat L) t).
      assert (E : len (firstn (N.to_nat L) t) = L) by (rewrite len_firstn; lia).
      split; [unfold delimited; rewrite E, <- app_assoc, firstn_skipn; reflexivity | split; [rewrite E; lia | rewrite E, (N.add_comm 3); reflexivity]].
    + right; right. split; [|split; [rewrite ?len_app, ?bytes3_len; change (2^24) with 16777216 in *; lia | reflexivity]].
      intros body rest HL E. unfold delimited in E. rewrite <- app_assoc in E.
      apply app_eq_len in E; [|rewrite !bytes3_len; reflexivity]. destruct E as [E1 E2].
      assert (E3 : L = len body) by (rewrite <- (unbe_bytes3 L LB), E1; apply unbe_bytes3; assumption).
      subst t. rewrite len_app in F. lia.
Qed.

(** ** The scanner *)

Definition ok (s : scanner) : Prop := s_start s <= s_end s /\ s_end s <= len (s_buf s) /\ 0 < len (s_buf s) <= maxBuffSize /\ s_err s = None.
Definition pend (s : scanner) (r : reader) : bytes := data_of s ++ concat (r_chunks r).
(** What is certain to be looked at. *)
Definition seen (s : scanner) (r : reader) : bytes := data_of s ++ concat (if r_with r then removelast (r_chunks r) else r_chunks r).

Lemma data_len : forall s, s_start s <= s_end s -> s_end s <= len (s_buf s) -> len (data_of s) = s_end s - s_start s.
Proof. intros s H1 H2. unfold data_of. rewrite len_firstn, len_skipn. lia. Qed.

Lemma overlay_data : forall dst src, (length src <= length dst)%nat -> firstn (length src) (overlay dst src) = src.
Proof. intros. unfold overlay. rewrite (firstn_all2 src) by lia. apply firstn_len_app; reflexivity. Qed.

Lemma shift_ok : forall s, ok s -> ok (shift s) /\ data_of (shift s) = data_of s /\ len (s_buf (shift s)) = len (s_buf s) /\ s_old (shift s) = s_old s
  /\ (s_end (shift s) = len (s_buf s) -> s_start (shift s) = 0).
Proof.
  intros s (H1 & H2 & H3 & H4). unfold shift.
  destruct ((0 <? s_start s) && ((s_end s =? len (s_buf s)) || (len (s_buf s) / 2 <? s_start s))) eqn:C.
  - assert (L : len (overlay (s_buf s) (data_of s)) = len (s_buf s)) by (unfold len; rewrite overlay_length; reflexivity).
    assert (D : len (data_of s) = s_end s - s_start s) by (apply data_len; assumption).
    split; [unfold ok; cbn [s_start s_end s_buf s_err]; rewrite L; repeat split; try lia; assumption|].
    split; [|cbn [s_buf s_old s_end s_start]; auto].
    unfold data_of at 1. cbn [s_start s_end s_buf]. rewrite N.sub_0_r. change (N.to_nat 0) with O. rewrite skipn_O.
    replace (N.to_nat (s_end s - s_start s)) with (length (data_of s)) by (unfold len in D; lia).
    apply overlay_data. unfold len in *; lia.
  - split; [unfold ok; auto|]. split; [reflexivity|split; [reflexivity|split; [reflexivity|]]]. intros E. rewrite E, N.eqb_refl in C. cbn in C.
    destruct (0 <? s_start s) eqn:Z; [discriminate|lia].
Qed.

Lemma grow_ok : forall s, ok s -> (s_end s = len (s_buf s) -> s_start s = 0 /\ len (data_of s) < maxBuffSize) ->
  exists s', grow s = Some s' /\ ok s' /\ data_of s' = data_of s /\ s_end s' < len (s_buf s').
Proof.
  intros s (H1 & H2 & H3 & H4) F. pose proof (data_len s H1 H2) as D. unfold grow.
  destruct (s_end s =? len (s_buf s)) eqn:E.
  - apply N.eqb_eq in E. destruct (F E) as [F1 F2].
    destruct (maxBuffSize <=? len (s_buf s)) eqn:M; [exfalso; lia|].
    set (size := N.min (len (s_buf s) * 2) maxBuffSize).
    assert (S1 : len (s_buf s) < size <= maxBuffSize) by (unfold size; lia). clearbody size.
    eexists; split; [reflexivity|].
    assert (L : len (overlay (repeat 0 (N.to_nat size)) (data_of s)) = size) by (unfold len; rewrite overlay_length, repeat_length; lia).
    split; [unfold ok; cbn [s_start s_end s_buf s_err]; rewrite L; repeat split; try lia; assumption|].
    split; [|cbn [s_buf s_end]; rewrite L; lia].
    unfold data_of at 1. cbn [s_start s_end s_buf]. rewrite N.sub_0_r. change (N.to_nat 0) with O. rewrite skipn_O.
    replace (N.to_nat (s_end s - s_start s)) with (length (data_of s)) by (unfold len in D; lia).
    apply overlay_data. rewrite repeat_length. unfold len in *; lia.
  - apply N.eqb_neq in E. eexists; split; [reflexivity|]. split; [unfold ok; auto|split; [reflexivity|lia]].
Qed.

Lemma store_ok : forall s d, s_start s <= s_end s -> s_end s + len d <= len (s_buf s) ->
  data_of (store s d) = data_of s ++ d /\ len (s_buf (store s d)) = len (s_buf s)
  /\ firstn (N.to_nat (s_end s)) (s_buf (store s d)) = firstn (N.to_nat (s_end s)) (s_buf s).
Proof.
  intros s d H1 H2.
  assert (A : length (firstn (N.to_nat (s_end s)) (s_buf s)) = N.to_nat (s_end s)) by (rewrite firstn_length; unfold len in *; lia).
  assert (B : overlay (skipn (N.to_nat (s_end s)) (s_buf s)) d = d ++ skipn (length d) (skipn (N.to_nat (s_end s)) (s_buf s)))
    by (unfold overlay; rewrite (firstn_all2 d); [reflexivity | rewrite skipn_length; unfold len in *; lia]).
  assert (C : s_buf (store s d) = firstn (N.to_nat (s_end s)) (s_buf s) ++ d ++ skipn (length d) (skipn (N.to_nat (s_end s)) (s_buf s)))
    by (unfold store; cbn [s_buf]; rewrite B; reflexivity).
  split; [|split].
  - set (X := firstn (N.to_nat (s_end s)) (s_buf s)) in *.
    assert (DX : data_of s = skipn (N.to_nat (s_start s)) X).
    { unfold data_of, X. rewrite firstn_skipn_comm. replace (N.to_nat (s_start s) + N.to_nat (s_end s - s_start s))%nat with (N.to_nat (s_end s)) by lia. reflexivity. }
    unfold data_of at 1. rewrite C. change (s_start (store s d)) with (s_start s). change (s_end (store s d)) with (s_end s + len d).
    rewrite skipn_app. replace (N.to_nat (s_start s) - length X)%nat with O by lia. rewrite skipn_O.
    rewrite DX, app_assoc. apply firstn_len_app. rewrite app_length, skipn_length. unfold len. lia.
  - rewrite C. rewrite !len_app, len_firstn, !len_skipn. unfold len in *. lia.
  - rewrite C. apply firstn_len_app; symmetry; assumption.
Qed.
