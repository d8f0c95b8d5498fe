(** Lemmas about the frame codec. *)
From Coq Require Import List NArith ZArith Lia Bool ZifyBool ZifyNat ZifyN.
From Verif Require Import Base BaseLemmas FramesModel FramesSpec.
Import ListNotations.
Open Scope N_scope.
Ltac Zify.zify_post_hook ::= Z.div_mod_to_equations.

Lemma be2_bytes2 : forall v, be 2 v = bytes2 v.
Proof. intro v. unfold bytes2. cbn [be]. rewrite !N.shiftr_div_pow2. cbn. rewrite N.div_1_r. reflexivity. Qed.
Lemma be4_bytes4 : forall v, be 4 v = bytes4 v.
Proof. intro v. unfold bytes4. cbn [be]. rewrite !N.shiftr_div_pow2. cbn. rewrite N.div_1_r. reflexivity. Qed.
Lemma be3_bytes3 : forall v, be 3 v = bytes3 v.
Proof. intro v. unfold bytes3. cbn [be]. rewrite !N.shiftr_div_pow2. cbn. rewrite N.div_1_r. reflexivity. Qed.
Lemma skip_be4 : forall v, skipn 1 (be 4 v) = bytes3 v.
Proof. intro v. rewrite <- be3_bytes3. reflexivity. Qed.

Lemma pack_arith : forall ty fg, ty < 64 -> fg < 1024 -> pack_type_flags ty fg = ty * 1024 + fg.
Proof.
  intros. unfold pack_type_flags, u16. rewrite N.shiftl_mul_pow2.
  change (2^16) with 65536. change (2^10) with 1024.
  rewrite !N.mod_small by lia. exact (lor_add ty fg 10 ltac:(cbn; lia)).
Qed.

Lemma NewFrameHeader_wire : forall sid ty fg, ty < 64 -> fg < 1024 ->
  NewFrameHeader sid ty fg = wire_header sid ty fg.
Proof. intros. unfold NewFrameHeader, wire_header. rewrite pack_arith, be4_bytes4, be2_bytes2 by assumption. reflexivity. Qed.

Lemma wire_header_len : forall s t f, len (wire_header s t f) = 6.
Proof. reflexivity. Qed.

Lemma bytes4_wf : forall v, wf (bytes4 v).
Proof. intro; rewrite <- be4_bytes4. apply be_wf. Qed.
Lemma bytes3_wf : forall v, wf (bytes3 v).
Proof. intro; rewrite <- be3_bytes3. apply be_wf. Qed.
Lemma bytes2_wf : forall v, wf (bytes2 v).
Proof. intro; rewrite <- be2_bytes2. apply be_wf. Qed.
Lemma unbe_bytes4 : forall v, v < 2^32 -> unbe (bytes4 v) = v.
Proof. intros; rewrite <- be4_bytes4. apply unbe_be_small. exact H. Qed.
Lemma unbe_bytes3 : forall v, v < 2^24 -> unbe (bytes3 v) = v.
Proof. intros; rewrite <- be3_bytes3. apply unbe_be_small. exact H. Qed.
Lemma unbe_bytes2 : forall v, v < 2^16 -> unbe (bytes2 v) = v.
Proof. intros; rewrite <- be2_bytes2. apply unbe_be_small. exact H. Qed.

Lemma hdr_stream_id_wire : forall s t f, s < 2^32 -> hdr_stream_id (wire_header s t f) = s mod 2^31.
Proof.
  intros. unfold hdr_stream_id. change (firstn 4 (wire_header s t f)) with (bytes4 s).
  rewrite unbe_bytes4 by assumption. exact (land_ones_mod s 31).
Qed.
Lemma hdr_n_wire : forall s t f, t < 64 -> f < 1024 -> hdr_n (wire_header s t f) = t * 1024 + f.
Proof.
  intros. unfold hdr_n. change (firstn 2 (skipn 4 (wire_header s t f))) with (bytes2 (t * 1024 + f)).
  apply unbe_bytes2. change (2^16) with 65536. lia.
Qed.
Lemma hdr_type_wire : forall s t f, t < 64 -> f < 1024 -> hdr_type (wire_header s t f) = t.
Proof.
  intros. unfold hdr_type. rewrite hdr_n_wire by assumption.
  rewrite N.shiftr_land. change (N.shiftr 0xFC00 10) with (2^6 - 1). rewrite land_ones_mod.
  rewrite N.shiftr_div_pow2. change (2^10) with 1024. change (2^6) with 64. lia.
Qed.
Lemma hdr_flag_wire : forall s t f, t < 64 -> f < 1024 -> hdr_flag (wire_header s t f) = f.
Proof.
  intros. unfold hdr_flag. rewrite hdr_n_wire by assumption.
  change 0x03FF with (2^10 - 1). rewrite land_ones_mod. change (2^10) with 1024. lia.
Qed.

(** ** Writing *)
Lemma Reset_spec : forall E buf s t f, 6 <= len buf -> t < 64 -> f < 1024 ->
  @ResetFrameHeader E buf s t f = Ret (wire_header s t f ++ skipn 6 buf).
Proof.
  intros. unfold ResetFrameHeader.
  pose proof (put_at_step E [] buf (be 4 s)) as P1. cbn [app len length] in P1.
  change (len (@nil N)) with 0 in P1. rewrite P1 by (rewrite be_len; lia). cbn [bind].
  rewrite be_length. 
  pose proof (put_at_step E (be 4 s) (skipn 4 buf) (be 2 (pack_type_flags t f))) as P2.
  rewrite (be_len 4 s) in P2. change (N.of_nat 4) with 4 in P2.
  rewrite P2 by (rewrite be_len, len_skipn; lia).
  rewrite be_length, skipn_skipn, pack_arith, be4_bytes4, be2_bytes2 by assumption. reflexivity.
Qed.

Lemma encode_body_spec : forall md data pre tail,
  fits32 md data ->
  len (wire_metadata md) + len data <= len tail ->
  encode_body md data (len pre) (pre ++ tail)
  = Ret (pre ++ wire_metadata md ++ data ++ skipn (length (wire_metadata md ++ data)) tail).
Proof.
  intros md data pre tail Hfit Hlen. unfold encode_body, fits32 in *.
  unfold u32. rewrite (N.mod_small (len md)) by (change (2^32 - 13) with 4294967283 in Hfit; lia).
  unfold wire_metadata in *.
  destruct md as [|m md'] eqn:E.
  - cbn [nonempty app len length] in *. change (len (@nil N)) with 0 in *. cbn [N.ltb N.compare].
    rewrite copy_at_step by lia. rewrite <- app_assoc. reflexivity.
  - rewrite <- E in *. assert (Hn : nonempty md = true) by (subst; reflexivity). rewrite Hn in *.
    assert (Hpos : 0 < len md) by (subst; rewrite len_cons; lia).
    destruct (N.ltb_spec 0 (len md)); [|lia].
    rewrite skip_be4. rewrite len_app in Hlen. change (len (bytes3 (len md))) with 3 in Hlen.
    rewrite put_at_step by (change (len (bytes3 (len md))) with 3; lia). cbn [bind].
    change (length (bytes3 (len md))) with 3%nat.
    replace (len pre + 3) with (len (pre ++ bytes3 (len md))) by (rewrite len_app; reflexivity).
    rewrite copy_at_step by (rewrite len_skipn; lia). cbn [bind].
    rewrite <- len_app.
    rewrite copy_at_step by (rewrite !len_skipn; unfold len in *; lia).
    rewrite !skipn_skipn. f_equal. rewrite <- !app_assoc. do 3 f_equal. f_equal. f_equal.
    rewrite !app_length. change (length (bytes3 (len md))) with 3%nat. lia.
Qed.

Lemma nonempty_ltb : forall md : bytes, len md < 2^32 -> (0 <? u32 (len md)) = nonempty md.
Proof.
  intros md H. unfold u32. rewrite N.mod_small by assumption.
  destruct md; [reflexivity|]. rewrite len_cons. cbn [nonempty]. destruct (N.ltb_spec 0 (1 + len md)); lia || reflexivity.
Qed.

Lemma payload_flags_arith : forall p, len (pf_metadata p) < 2^32 -> payload_flags p =
  bit (pf_next p) 32 + bit (pf_complete p) 64 + bit (pf_follows p) 128 + bit (nonempty (pf_metadata p)) 256.
Proof.
  intros p H. unfold payload_flags. rewrite nonempty_ltb by assumption.
  destruct (pf_next p), (pf_complete p), (pf_follows p), (nonempty (pf_metadata p)); reflexivity.
Qed.
Lemma request_flags_arith : forall r, len (rf_metadata r) < 2^32 -> request_flags r =
  bit ((rf_type r =? 7) && rf_complete r) 64 + bit (nonempty (rf_metadata r)) 256.
Proof.
  intros r H. unfold request_flags. rewrite nonempty_ltb by assumption.
  unfold FrameTypeRequestChannel.
  destruct ((rf_type r =? 7) && rf_complete r), (nonempty (rf_metadata r)); reflexivity.
Qed.
Lemma bit_bound : forall b w, bit b w <= w.
Proof. intros [] w; cbn; lia. Qed.

Lemma wire_metadata_len : forall md, len (wire_metadata md) = if nonempty md then 3 + len md else 0.
Proof. intro md. unfold wire_metadata. destruct (nonempty md); [rewrite len_app; reflexivity|reflexivity]. Qed.

Lemma fits32_unfold : forall md data, fits32 md data -> len md + len data < 4294967283.
Proof. intros md data H; exact H. Qed.

Lemma frame_size_wire : forall f, frame_in_range f -> frame_size f = len (wire f).
Proof.
  intros [sid|sid n|sid code data|p|r] H; cbn [frame_size wire frame_in_range] in *.
  - reflexivity.
  - rewrite len_app. reflexivity.
  - destruct H as (_ & _ & H). rewrite !len_app, wire_header_len. change (len (bytes4 code)) with 4.
    unfold u32, FrameHeaderLen. change (2^32) with 4294967296 in *. rewrite N.mod_small by lia. lia.
  - destruct H as (_ & H). apply fits32_unfold in H. unfold payload_size.
    rewrite nonempty_ltb by (change (2^32) with 4294967296; lia).
    rewrite !len_app, wire_header_len, wire_metadata_len. unfold u32, FrameHeaderLen. change (2^32) with 4294967296.
    rewrite (N.mod_small (len _ + len _)) by lia.
    destruct (pf_metadata p) as [|x l] eqn:E; cbn [nonempty]; rewrite !N.mod_small by (rewrite ?len_nil in *; lia);
    rewrite ?len_nil; lia.
  - destruct H as (_ & Ht & _ & H). apply fits32_unfold in H. unfold request_size.
    rewrite nonempty_ltb by (change (2^32) with 4294967296; lia).
    rewrite !len_app, wire_header_len, wire_metadata_len. unfold u32, FrameHeaderLen. change (2^32) with 4294967296.
    rewrite (N.mod_small (len _ + len _)) by lia.
    change (has_initial_n (rf_type r)) with (is_stream_or_channel (rf_type r)).
    destruct (is_stream_or_channel (rf_type r)), (rf_metadata r) as [|x l] eqn:E; cbn [nonempty];
    change (len (bytes4 (rf_initial_n r))) with 4;
    rewrite !N.mod_small by (rewrite ?len_nil in *; lia); rewrite ?len_nil; lia.
Qed.

Lemma frame_encode_wire : forall f, frame_in_range f ->
  forall buf tail, len buf = frame_size f -> frame_encode f (buf ++ tail) = Ret (wire f ++ tail).
Proof.
  intros f H buf tail Hlen. rewrite (frame_size_wire f H) in Hlen.
  destruct f as [sid|sid n|sid code data|p|r]; cbn [frame_encode wire frame_in_range] in *.
  - unfold cancel_encode, FrameTypeCancel. change (len (wire_header sid 9 0)) with 6 in Hlen.
    rewrite Reset_spec by (rewrite ?len_app; lia). f_equal. f_equal.
    apply skipn_len_app. unfold len in Hlen. lia.
  - unfold requestn_encode, FrameTypeRequestN. rewrite len_app in Hlen. 
    change (len (wire_header sid 8 0)) with 6 in Hlen. change (len (bytes4 n)) with 4 in Hlen.
    rewrite Reset_spec by (rewrite ?len_app; lia). cbn [bind].
    change FrameHeaderLen with (len (wire_header sid 8 0)).
    rewrite put_at_step by (rewrite be_len, len_skipn, len_app; lia).
    rewrite be_length, skipn_skipn, be4_bytes4. f_equal. f_equal.
    apply skipn_len_app. unfold len in Hlen. lia.
  - unfold error_encode, FrameTypeError. rewrite !len_app in Hlen.
    change (len (wire_header sid 11 0)) with 6 in Hlen. change (len (bytes4 code)) with 4 in Hlen.
    rewrite Reset_spec by (rewrite ?len_app; lia). cbn [bind].
    change FrameHeaderLen with (len (wire_header sid 11 0)) at 1.
    rewrite put_at_step by (rewrite be_len, len_skipn, len_app; lia). cbn [bind].
    rewrite be_length, skipn_skipn, be4_bytes4.
    change (FrameHeaderLen + 4) with (len (wire_header sid 11 0 ++ bytes4 code)).
    rewrite copy_at_step by (rewrite len_skipn, len_app; lia).
    rewrite skipn_skipn. f_equal. rewrite <- !app_assoc. do 3 f_equal.
    apply skipn_len_app. unfold len in Hlen. lia.
  - destruct H as (_ & H). pose proof (fits32_unfold _ _ H) as Hb. unfold payload_encode.
    rewrite payload_flags_arith by (change (2^32) with 4294967296; lia).
    set (fl := bit _ 32 + _ + _ + _) in *.
    assert (fl < 1024).
    { unfold fl. pose proof (bit_bound (pf_next p) 32). pose proof (bit_bound (pf_complete p) 64).
      pose proof (bit_bound (pf_follows p) 128). pose proof (bit_bound (nonempty (pf_metadata p)) 256). lia. }
    rewrite !len_app in Hlen. rewrite wire_header_len in Hlen.
    rewrite Reset_spec by (rewrite ?len_app; unfold FrameTypePayload; lia). cbn [bind].
    change FrameTypePayload with 10.
    change FrameHeaderLen with (len (wire_header (pf_stream_id p) 10 fl)).
    rewrite encode_body_spec; [|assumption|rewrite len_skipn, len_app; lia].
    rewrite skipn_skipn. f_equal. rewrite <- !app_assoc. do 3 f_equal.
    apply skipn_len_app. unfold len in Hlen. rewrite app_length. lia.
  - destruct H as (_ & Ht & _ & H). pose proof (fits32_unfold _ _ H) as Hb. unfold request_encode.
    rewrite request_flags_arith by (change (2^32) with 4294967296; lia).
    set (fl := bit _ 64 + _) in *.
    assert (fl < 1024).
    { unfold fl. pose proof (bit_bound ((rf_type r =? 7) && rf_complete r) 64). pose proof (bit_bound (nonempty (rf_metadata r)) 256). lia. }
    rewrite !len_app in Hlen. rewrite wire_header_len in Hlen.
    rewrite Reset_spec by (rewrite ?len_app; lia). cbn [bind].
    change (has_initial_n (rf_type r)) with (is_stream_or_channel (rf_type r)).
    destruct (is_stream_or_channel (rf_type r)).
    + change (len (bytes4 (rf_initial_n r))) with 4 in Hlen.
      change FrameHeaderLen with (len (wire_header (rf_stream_id r) (rf_type r) fl)) at 1.
      rewrite put_at_step by (rewrite be_len, len_skipn, len_app; lia). cbn [bind].
      rewrite be_length, skipn_skipn, be4_bytes4.
      change (FrameHeaderLen + 4) with (len (wire_header (rf_stream_id r) (rf_type r) fl ++ bytes4 (rf_initial_n r))).
      rewrite encode_body_spec; [|assumption|rewrite len_skipn, len_app; lia].
      rewrite skipn_skipn. f_equal. rewrite <- !app_assoc. do 4 f_equal.
      apply skipn_len_app. unfold len in Hlen. rewrite app_length. lia.
    + change (len (@nil N)) with 0 in Hlen.
      change FrameHeaderLen with (len (wire_header (rf_stream_id r) (rf_type r) fl)).
      rewrite encode_body_spec; [|assumption|rewrite len_skipn, len_app; lia].
      rewrite skipn_skipn. f_equal. cbn [app]. rewrite <- !app_assoc. do 3 f_equal.
      apply skipn_len_app. unfold len in Hlen. rewrite app_length. lia.
Qed.

Lemma frame_bytes_wire : forall f, frame_in_range f -> frame_bytes f = Ret (wire f).
Proof.
  intros. unfold frame_bytes. rewrite <- (app_nil_r (repeat _ _)).
  rewrite frame_encode_wire; [rewrite app_nil_r; reflexivity|assumption|rewrite len_repeat; lia].
Qed.

(** ** Reading *)
Lemma frame_parse_split : forall s t f body,
  frame_parse (wire_header s t f ++ body) = frame_decode (wire_header s t f) body.
Proof.
  intros. unfold frame_parse, ParseFrameHeader.
  rewrite slice_to_app by reflexivity. cbn [bind]. rewrite slice_from_app by reflexivity. reflexivity.
Qed.

Lemma decode_metadata_ok : forall md data, len md < 2^24 ->
  decode_metadata (nonempty md) (wire_metadata md ++ data) = Ret (md, data).
Proof.
  intros md data H. unfold decode_metadata, wire_metadata.
  destruct (nonempty md) eqn:E; [|destruct md; [reflexivity|discriminate]].
  rewrite <- app_assoc. rewrite slice_to_app by reflexivity. cbn [bind].
  rewrite slice_from_app by reflexivity. cbn [bind].
  replace (unbe (0 :: bytes3 (len md))) with (len md).
  2:{ rewrite unbe_cons by (apply wf_cons; split; [lia|apply bytes3_wf]). rewrite unbe_bytes3 by assumption. lia. }
  rewrite slice_to_app by reflexivity. cbn [bind].
  rewrite slice_from_app by reflexivity. reflexivity.
Qed.

(** Metadata whose length does not fit 24 bits is cut. *)
Lemma decode_metadata_cut : forall md data, 2^24 <= len md -> len md < 2^32 ->
  exists md' data', decode_metadata true (bytes3 (len md) ++ md ++ data) = Ret (md', data') /\ len md' < len md.
Proof.
  intros md data H H32. unfold decode_metadata.
  rewrite slice_to_app by reflexivity. cbn [bind].
  rewrite slice_from_app by reflexivity. cbn [bind].
  assert (Hu : unbe (0 :: bytes3 (len md)) = len md mod 2^24).
  { rewrite unbe_cons by (apply wf_cons; split; [lia|apply bytes3_wf]).
    rewrite <- be3_bytes3, unbe_be. change (256 ^ N.of_nat 3) with (2^24). lia. }
  rewrite Hu. assert (len md mod 2^24 < 2^24) by (apply N.mod_lt; discriminate).
  set (k := len md mod 2^24) in *.
  unfold slice_to, slice_from. rewrite len_app.
  destruct (N.leb_spec k (len md + len data)); [|lia]. cbn [bind].
  eexists _, _; split; [reflexivity|]. rewrite len_firstn, len_app. lia.
Qed.

Lemma Check_bit_sum : forall n c f m,
  let fl := bit n 32 + bit c 64 + bit f 128 + bit m 256 in
  Check fl FlagNext = n /\ Check fl FlagComplete = c /\ Check fl FlagFollow = f /\ Check fl FlagMetadata = m.
Proof. intros [] [] [] []; cbv; repeat split. Qed.
Lemma Check_bit_sum2 : forall c m,
  let fl := bit c 64 + bit m 256 in
  Check fl FlagComplete = c /\ Check fl FlagFollow = false /\ Check fl FlagMetadata = m.
Proof. intros [] []; cbv; repeat split. Qed.

Lemma sid_small : forall sid, sid < 2^31 -> sid < 2^32 /\ sid mod 2^31 = sid.
Proof. intros; split; [change (2^32) with (2 * 2^31); lia|apply N.mod_small; assumption]. Qed.

Lemma frame_parse_wire : forall f, frame_in_range f -> len (frame_metadata f) < 2^24 ->
  frame_parse (wire f) = Ret (Some (on_wire f)).
Proof.
  intros [sid|sid n|sid code data|p|r] H Hmd; cbn [wire frame_in_range frame_metadata on_wire] in *.
  - destruct (sid_small _ H) as [H1 H2]. rewrite <- (app_nil_r (wire_header _ _ _)), frame_parse_split.
    unfold frame_decode. rewrite hdr_type_wire by lia. cbn [N.leb N.eqb N.compare]. cbn -[hdr_stream_id wire_header].
    rewrite hdr_stream_id_wire, H2 by assumption. reflexivity.
  - destruct H as [H Hn]. destruct (sid_small _ H) as [H1 H2]. rewrite frame_parse_split.
    unfold frame_decode. rewrite hdr_type_wire by lia. cbn -[hdr_stream_id wire_header bytes4 get_be].
    unfold requestn_decode. rewrite <- (app_nil_r (bytes4 n)), get_be_app by reflexivity.
    cbn [bind]. rewrite hdr_stream_id_wire, H2, unbe_bytes4 by assumption. reflexivity.
  - destruct H as (H & Hc & Hd). destruct (sid_small _ H) as [H1 H2]. rewrite frame_parse_split.
    unfold frame_decode. rewrite hdr_type_wire by lia. cbn -[hdr_stream_id wire_header bytes4 get_be error_decode].
    unfold error_decode. rewrite get_be_app by reflexivity. cbn [bind].
    rewrite slice_from_app by reflexivity. cbn [bind].
    rewrite hdr_stream_id_wire, H2, unbe_bytes4 by assumption. reflexivity.
  - destruct H as (H & Hf). destruct (sid_small _ H) as [H1 H2]. rewrite frame_parse_split.
    set (fl := bit _ 32 + _ + _ + _).
    assert (fl < 1024).
    { unfold fl. pose proof (bit_bound (pf_next p) 32). pose proof (bit_bound (pf_complete p) 64).
      pose proof (bit_bound (pf_follows p) 128). pose proof (bit_bound (nonempty (pf_metadata p)) 256). lia. }
    unfold frame_decode. rewrite hdr_type_wire by lia. cbn -[hdr_stream_id wire_header payload_decode].
    unfold payload_decode. rewrite hdr_flag_wire by lia.
    destruct (Check_bit_sum (pf_next p) (pf_complete p) (pf_follows p) (nonempty (pf_metadata p))) as (C1 & C2 & C3 & C4).
    fold fl in C1, C2, C3, C4. rewrite C1, C2, C3, C4.
    rewrite decode_metadata_ok by assumption. cbn [bind].
    rewrite hdr_stream_id_wire, H2 by assumption. destruct p; reflexivity.
  - destruct H as (H & Ht & Hn & Hf). destruct (sid_small _ H) as [H1 H2]. rewrite frame_parse_split.
    set (fl := bit _ 64 + _).
    assert (fl < 1024).
    { unfold fl. pose proof (bit_bound ((rf_type r =? 7) && rf_complete r) 64). pose proof (bit_bound (nonempty (rf_metadata r)) 256). lia. }
    unfold frame_decode. rewrite hdr_type_wire by lia.
    unfold FrameTypeRequestResponse, FrameTypeRequestChannel.
    replace ((4 <=? rf_type r) && (rf_type r <=? 7)) with true by lia.
    unfold request_decode. rewrite hdr_type_wire, hdr_flag_wire by lia.
    change (has_initial_n (rf_type r)) with (is_stream_or_channel (rf_type r)).
    destruct (Check_bit_sum2 ((rf_type r =? 7) && rf_complete r) (nonempty (rf_metadata r))) as (C2 & C3 & C4).
    fold fl in C2, C3, C4. rewrite C2, C3, C4.
    unfold request_on_wire.
    destruct (is_stream_or_channel (rf_type r)) eqn:Esc.
    + rewrite get_be_app by reflexivity. cbn [bind]. rewrite slice_from_app by reflexivity. cbn [bind].
      rewrite decode_metadata_ok by assumption. cbn [bind].
      rewrite hdr_stream_id_wire, H2, unbe_bytes4 by assumption.
      unfold FrameTypeRequestChannel. destruct (rf_type r =? 7); reflexivity.
    + cbn [app bind]. rewrite decode_metadata_ok by assumption. cbn [bind].
      rewrite hdr_stream_id_wire, H2 by assumption.
      unfold FrameTypeRequestChannel. destruct (rf_type r =? 7); reflexivity.
Qed.

Lemma frame_round_trip : forall f, frame_in_range f -> len (frame_metadata f) < 2^24 ->
  exists bs, frame_bytes f = Ret bs /\ len bs = frame_size f /\ frame_parse bs = Ret (Some (on_wire f)).
Proof.
  intros f H Hm. exists (wire f). repeat split.
  - apply frame_bytes_wire; assumption.
  - symmetry; apply frame_size_wire; assumption.
  - apply frame_parse_wire; assumption.
Qed.

Lemma payload_big_metadata : forall p, frame_in_range (FPayload p) -> 2^24 <= len (pf_metadata p) ->
  exists bs q, frame_bytes (FPayload p) = Ret bs /\ frame_parse bs = Ret (Some (FPayload q))
    /\ len (pf_metadata q) < len (pf_metadata p).
Proof.
  intros p H Hb. pose proof H as [Hs Hf]. apply fits32_unfold in Hf.
  exists (wire (FPayload p)). 
  assert (Hne : nonempty (pf_metadata p) = true).
  { destruct (pf_metadata p); [rewrite len_nil in Hb; exfalso; revert Hb; apply N.lt_nge; reflexivity|reflexivity]. }
  destruct (decode_metadata_cut (pf_metadata p) (pf_data p) Hb) as (md' & data' & Hd & Hlt).
  { change (2^32) with 4294967296. lia. }
  eexists. split; [apply frame_bytes_wire; assumption|].
  cbn [wire]. rewrite frame_parse_split.
  set (fl := bit _ 32 + _ + _ + _).
  assert (fl < 1024).
  { unfold fl. pose proof (bit_bound (pf_next p) 32). pose proof (bit_bound (pf_complete p) 64).
    pose proof (bit_bound (pf_follows p) 128). pose proof (bit_bound (nonempty (pf_metadata p)) 256). lia. }
  unfold frame_decode. rewrite hdr_type_wire by lia. cbn -[hdr_stream_id wire_header payload_decode].
  unfold payload_decode. rewrite hdr_flag_wire by lia.
  destruct (Check_bit_sum (pf_next p) (pf_complete p) (pf_follows p) (nonempty (pf_metadata p))) as (C1 & C2 & C3 & C4).
  fold fl in C1, C2, C3, C4. rewrite C4, Hne.
  unfold wire_metadata. rewrite Hne, <- app_assoc, Hd. cbn [bind].
  split; [reflexivity|]. exact Hlt.
Qed.

(** ** u24 *)
Lemma NewUint24_bytes3 : forall v, fst (NewUint24 v) = bytes3 v.
Proof.
  intro v. unfold NewUint24, bytes3, u8. cbn [fst]. rewrite !N.shiftr_div_pow2. reflexivity.
Qed.
Lemma ReadUint24_bytes3 : forall v rest, v <= 16777215 -> ReadUint24ToInt (bytes3 v ++ rest) = Ret v.
Proof.
  intros v rest H. unfold bytes3. cbn [app ReadUint24ToInt]. rewrite !N.shiftl_mul_pow2.
  change (2^16) with 65536. change (2^8) with 256. f_equal. lia.
Qed.
