(** Final form of the frame-layer lemmas, as used by [FramesProps]. *)
From Coq Require Import List NArith ZArith Lia Bool ZifyBool ZifyNat ZifyN.
From Verif Require Import Base BaseLemmas FramesModel FramesSpec FramesProofs FragmentProofs.
Import ListNotations.
Open Scope N_scope.
Ltac Zify.zify_post_hook ::= Z.div_mod_to_equations.

Lemma header_round_trip : forall sid ty fg, sid < 2^32 -> ty < 64 -> fg < 1024 ->
  NewFrameHeader sid ty fg = wire_header sid ty fg
  /\ hdr_stream_id (NewFrameHeader sid ty fg) = sid mod 2^31
  /\ hdr_type (NewFrameHeader sid ty fg) = ty
  /\ hdr_flag (NewFrameHeader sid ty fg) = fg.
Proof.
  intros. rewrite NewFrameHeader_wire by assumption.
  rewrite hdr_stream_id_wire, hdr_type_wire, hdr_flag_wire by assumption. auto.
Qed.

Lemma header_injective : forall sid ty fg sid' ty' fg',
  sid < 2^31 -> ty < 64 -> fg < 1024 -> sid' < 2^31 -> ty' < 64 -> fg' < 1024 ->
  NewFrameHeader sid ty fg = NewFrameHeader sid' ty' fg' -> sid = sid' /\ ty = ty' /\ fg = fg'.
Proof.
  intros sid ty fg sid' ty' fg' H1 H2 H3 H1' H2' H3' H.
  destruct (sid_small _ H1) as [A B]. destruct (sid_small _ H1') as [A' B'].
  destruct (header_round_trip sid ty fg A H2 H3) as (_ & X1 & X2 & X3).
  destruct (header_round_trip sid' ty' fg' A' H2' H3') as (_ & Y1 & Y2 & Y3).
  rewrite H in *. repeat split; congruence.
Qed.

(** Every 6-byte header is the header of the three fields read from it (up to the reserved top bit). *)
Lemma header_surjective : forall h, wf h -> length h = 6%nat ->
  exists top, top < 2 /\ h = NewFrameHeader (top * 2^31 + hdr_stream_id h) (hdr_type h) (hdr_flag h)
  /\ hdr_type h < 64 /\ hdr_flag h < 1024 /\ hdr_stream_id h < 2^31.
Proof.
  intros h Hwf Hl. unfold hdr_stream_id, hdr_type, hdr_flag, hdr_n.
  destruct h as [|b0 [|b1 [|b2 [|b3 [|b4 [|b5 [|]]]]]]]; try discriminate Hl. clear Hl.
  cbn [firstn skipn].
  set (w4 := [b0;b1;b2;b3]). set (w2 := [b4;b5]).
  assert (Hw4 : wf w4) by (unfold wf in *; rewrite Forall_forall in *; intros x Hx; apply Hwf; cbn in *; intuition).
  assert (Hw2 : wf w2) by (unfold wf in *; rewrite Forall_forall in *; intros x Hx; apply Hwf; cbn in *; intuition).
  pose proof (unbe_bound w4 Hw4) as B4. pose proof (unbe_bound w2 Hw2) as B2.
  pose proof (be_unbe w4 Hw4) as E4. pose proof (be_unbe w2 Hw2) as E2.
  set (v4 := unbe w4) in *. set (v2 := unbe w2) in *.
  change (256 ^ len w4) with 4294967296 in B4. change (256 ^ len w2) with 65536 in B2.
  change (length w4) with 4%nat in E4. change (length w2) with 2%nat in E2.
  change 0x7FFFFFFF with (2^31 - 1). change 0x3FF with (2^10 - 1). rewrite !land_ones_mod.
  rewrite N.shiftr_land. change (N.shiftr 0xFC00 10) with (2^6 - 1). rewrite land_ones_mod, N.shiftr_div_pow2.
  change (2^31) with 2147483648. change (2^10) with 1024. change (2^6) with 64.
  exists (v4 / 2147483648). repeat split; try lia.
  unfold NewFrameHeader. rewrite pack_arith by lia.
  replace (v4 / 2147483648 * 2147483648 + v4 mod 2147483648) with v4 by lia.
  replace ((v2 / 1024) mod 64 * 1024 + v2 mod 1024) with v2 by lia.
  rewrite E4, E2. reflexivity.
Qed.

Lemma small_frames_round_trip : forall f,
  frame_in_range f -> (forall p, f <> FPayload p) -> (forall r, f <> FRequest r) ->
  exists bs, frame_bytes f = Ret bs /\ frame_parse bs = Ret (Some f).
Proof.
  intros f H H1 H2. destruct (frame_round_trip f H) as (bs & A & _ & B).
  - destruct f; cbn; try reflexivity; exfalso; [eapply H1|eapply H2]; reflexivity.
  - exists bs; split; [assumption|]. rewrite B. destruct f; try reflexivity. exfalso; eapply H2; reflexivity.
Qed.

Lemma payload_round_trip_iff : forall p, frame_in_range (FPayload p) ->
  exists bs, frame_bytes (FPayload p) = Ret bs
    /\ (frame_parse bs = Ret (Some (FPayload p)) <-> len (pf_metadata p) < 2^24).
Proof.
  intros p H. destruct (N.lt_ge_cases (len (pf_metadata p)) (2^24)) as [Hl|Hl].
  - destruct (frame_round_trip (FPayload p) H Hl) as (bs & A & _ & B).
    exists bs. split; [assumption|]. split; auto.
  - destruct (payload_big_metadata p H Hl) as (bs & q & A & B & C).
    exists bs. split; [assumption|]. split; intro X.
    + rewrite B in X. injection X as ->. lia.
    + lia.
Qed.

Lemma request_round_trip : forall r, frame_in_range (FRequest r) -> len (rf_metadata r) < 2^24 ->
  exists bs, frame_bytes (FRequest r) = Ret bs
    /\ frame_parse bs = Ret (Some (FRequest (request_on_wire r)))
    /\ (frame_parse bs = Ret (Some (FRequest r)) <->
        rf_follows r = false /\ (rf_type r <> 7 -> rf_complete r = true)
        /\ (rf_type r <> 6 -> rf_type r <> 7 -> rf_initial_n r = 1)).
Proof.
  intros r H Hl. destruct (frame_round_trip (FRequest r) H Hl) as (bs & A & _ & B).
  exists bs. split; [assumption|]. split; [exact B|]. rewrite B. cbn [on_wire].
  unfold request_on_wire, is_stream_or_channel.
  destruct r as [ty sid md data fo co n]; cbn [rf_type rf_stream_id rf_metadata rf_data rf_follows rf_complete rf_initial_n].
  split.
  - intro X. injection X as X1 X2 X3. subst fo. repeat split; auto.
    + intro. destruct (N.eqb_spec ty 7); congruence.
    + intros. destruct (N.eqb_spec ty 6), (N.eqb_spec ty 7); cbn in *; congruence.
  - intros (-> & C1 & C2). do 3 f_equal.
    destruct (N.eqb_spec ty 7), (N.eqb_spec ty 6); subst; cbn [orb]; f_equal; auto; symmetry; auto.
Qed.

Lemma wire_follow_lost : forall r, frame_in_range (FRequest r) -> len (rf_metadata r) < 2^24 ->
  forall bs, frame_bytes (FRequest r) = Ret bs ->
  exists q, frame_parse bs = Ret (Some (FRequest q)) /\ rf_follows q = false.
Proof.
  intros r H Hl bs E. destruct (frame_round_trip (FRequest r) H Hl) as (bs' & A & _ & B).
  rewrite E in A. injection A as <-. eexists; split; [exact B|reflexivity].
Qed.

Lemma encode_exact : forall f, frame_in_range f ->
  forall buf tail, len buf = frame_size f ->
  frame_encode f (buf ++ tail) = Ret (wire f ++ tail) /\ len (wire f) = frame_size f.
Proof. intros; split; [apply frame_encode_wire; assumption|symmetry; apply frame_size_wire; assumption]. Qed.

Lemma u24_correct : forall v, v < 2^32 ->
  (v <= 16777215 -> NewUint24 v = (bytes3 v, None) /\ MustNewUint24 v = Ret (bytes3 v)
      /\ (forall w, WriteUint24 w v = (w ++ bytes3 v, None))
      /\ forall rest, ReadUint24ToInt (bytes3 v ++ rest) = Ret v)
  /\ (16777215 < v -> snd (NewUint24 v) = Some ExceedMaxUint24 /\ MustNewUint24 v = Panic
      /\ forall w, WriteUint24 w v = (w, Some ExceedMaxUint24)).
Proof.
  intros v Hv.
  assert (E : NewUint24 v = (bytes3 v, if MaxUint24 <? v then Some ExceedMaxUint24 else None)).
  { rewrite <- NewUint24_bytes3. reflexivity. }
  unfold MustNewUint24, WriteUint24. rewrite !E. unfold MaxUint24.
  split; intro H; destruct (N.ltb_spec 16777215 v); try lia; cbn [snd]; repeat split; auto.
  intro rest. apply ReadUint24_bytes3. assumption.
Qed.

Lemma request_fragment_small : forall fuel r max, request_size r <= max ->
  request_fragment fuel r max = Some (Ret None).
Proof. intros. unfold request_fragment. destruct (N.leb_spec (request_size r) max); [reflexivity|lia]. Qed.

Lemma app_self_nil : forall (l : bytes), l ++ l = l -> l = [].
Proof. intros [|x l] H; [reflexivity|]. apply (f_equal (@length N)) in H. rewrite app_length in H. cbn in H. lia. Qed.

Lemma request_fragment_iff : forall r max fuel,
  fits32 (rf_metadata r) (rf_data r) -> 13 <= max < 2^32 -> max < request_size r ->
  len (rf_metadata r) + len (rf_data r) < N.of_nat fuel ->
  exists first fs, request_fragment fuel r max = Some (Ret (Some (first, fs)))
    /\ request_size first <= max
    /\ Forall (fun q => payload_size q <= max /\ pf_stream_id q = rf_stream_id r) fs
    /\ rf_type first = rf_type r /\ rf_stream_id first = rf_stream_id r
    /\ rf_initial_n first = rf_initial_n r /\ rf_follows first = true
    /\ marks_ok true (rf_complete r) fs
    /\ rf_data first ++ reassemble_data fs = rf_data r
    /\ (rf_metadata first ++ reassemble_metadata fs = rf_metadata r
        <-> rf_metadata r = [] \/ (max <= len (rf_metadata r) + (if is_stream_or_channel (rf_type r) then 13 else 9))).
Proof.
  intros r max fuel Hf Hm Hb Hfu.
  destruct (request_fragment_correct r max fuel Hf Hm Hb Hfu)
    as (first & fs & A1 & A2 & A3 & A4 & A5 & A6 & A7 & A8 & A9 & A10).
  exists first, fs. do 9 (split; [assumption|]). rewrite A10.
  unfold first_md_room.
  destruct (N.leb_spec (max - (if is_stream_or_channel (rf_type r) then 13 else 9)) (len (rf_metadata r))).
  - split; [intros _; right|reflexivity]. destruct (is_stream_or_channel (rf_type r)); lia.
  - split.
    + intro X. left. apply app_self_nil; assumption.
    + intros [->|X]; [reflexivity|]. destruct (is_stream_or_channel (rf_type r)); lia.
Qed.
