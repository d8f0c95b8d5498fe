(** Proofs about the Rust frame codec against the Go one. *)
From Coq Require Import List NArith ZArith Lia Bool ZifyBool ZifyNat ZifyN.
From Verif Require Import Base BaseLemmas  FramesModel FramesSpec FramesProofs FramesPropsLemmas CustomModel CustomSpec CustomProofs RustFramesModel RustFramesSpec.
Import ListNotations.
Open Scope N_scope.
Ltac Zify.zify_post_hook ::= Z.div_mod_to_equations.

Definition agree (r : outcome rerr rframe) (o : outcome no_error (option frame)) : Prop :=
  match o with
  | Ret (Some f) => (readable_text f /\ exists g, r = Ret g /\ says (go_view g) = f /\ consistent g) \/ (~ readable_text f /\ r = Fail StringConversion)
  | _ => r = Panic
  end.

(** ** The header *)
Lemma land_low : forall x f, f < 1024 -> N.land x f = N.land (x mod 1024) f.
Proof.
  intros x f F. assert (E : f = N.land f (N.ones 10)) by (rewrite N.land_ones, N.mod_small by exact F; reflexivity).
  rewrite E, (N.land_comm f), !N.land_assoc. rewrite !N.land_ones. change (2^10) with 1024. rewrite N.mod_mod by lia. reflexivity.
Qed.

Lemma land7f : forall b, b < 256 -> N.land b 0x7f = b mod 128.
Proof. intros. change 0x7f with (N.ones 7). rewrite N.land_ones. reflexivity. Qed.

Section Hdr.
Variables (s ty fl : N).
Hypotheses (S : s < 2^32) (T : ty < 64) (F : fl < 1024).

Lemma header_stream_id_wire : header_stream_id (wire_header s ty fl) = s mod 2^31.
Proof.
  unfold wire_header, bytes4. cbn [app header_stream_id firstn]. rewrite land7f by (apply N.mod_lt; discriminate).
  rewrite !unbe_cons by (repeat (apply wf_cons; split; [unfold is_byte; first [apply N.mod_lt; discriminate | lia]|]); constructor). unfold len. cbn [length]. change (unbe []) with 0.
  change (256 ^ N.of_nat 3) with 16777216. change (256 ^ N.of_nat 2) with 65536. change (256 ^ N.of_nat 1) with 256. change (256 ^ N.of_nat 0) with 1.
  change (2^31) with 2147483648. change (2^32) with 4294967296 in S. lia.
Qed.

Lemma header_n_wire : header_n (wire_header s ty fl) = ty * 1024 + fl.
Proof. exact (hdr_n_wire s ty fl T F). Qed.

Lemma header_check_wire : forall f, f < 1024 -> header_check (wire_header s ty fl) f = Check fl f.
Proof.
  intros f L. unfold header_check, Check. rewrite header_n_wire, land_low by exact L.
  replace ((ty * 1024 + fl) mod 1024) with fl by lia. rewrite N.land_comm. reflexivity.
Qed.

Lemma header_type_wire : nth 4 (wire_header s ty fl) 0 / 4 = ty.
Proof. unfold wire_header, bytes4, bytes2. cbn [app nth]. lia. Qed.

Lemma header_frame_type_wire : header_frame_type (E := rerr) (wire_header s ty fl) = match rtype_try_from ty with Some t => Ret t | None => Panic end.
Proof. unfold header_frame_type. rewrite N.shiftr_div_pow2. change (2^2) with 4. rewrite header_type_wire. reflexivity. Qed.
End Hdr.

(** ** The parts of a body *)
Lemma split_to_slices : forall E (b : bytes) n, split_to (E := E) b n = (do x <- slice_to b n ; do y <- slice_from b n ; Ret (x, y)).
Proof. intros. unfold split_to, slice_to, slice_from. destruct (n <=? len b); reflexivity. Qed.

Lemma unbe_0 : forall l, unbe (0 :: l) = unbe l.
Proof. reflexivity. Qed.

Lemma from_split : forall E b w, N.of_nat w <= len b -> from_bytes_n (E := E) (N.of_nat w) (firstn w b) = Ret (unbe (firstn w b)).
Proof. intros E b w L. unfold from_bytes_n. rewrite len_firstn. destruct (N.eqb_spec (N.min (N.of_nat w) (len b)) (N.of_nat w)); [reflexivity|lia]. Qed.

Lemma metadata_agree : forall has b,
  rmetadata (E := rerr) has b = match decode_metadata has b with Ret x => Ret x | Fail e => match e with end | Panic => Panic end.
Proof.
  intros has b. unfold rmetadata, decode_metadata. destruct has; [|reflexivity].
  unfold split_to at 1, slice_to at 1. destruct (N.leb_spec 3 (len b)) as [L|L]; [|reflexivity]. cbn [bind].
  change (N.to_nat 3) with 3%nat. change 3 with (N.of_nat 3) at 1. rewrite from_split by lia. cbn [bind].
  unfold slice_from at 1. destruct (N.leb_spec 3 (len b)); [|lia]. cbn [bind]. change (N.to_nat 3) with 3%nat.
  rewrite unbe_0. unfold split_to, slice_to, slice_from. destruct (unbe (firstn 3 b) <=? len (skipn 3 b)); reflexivity.
Qed.

Lemma four : forall E A b (k : N -> bytes -> outcome E A),
  (do (x, y) <- split_to b 4 ; do n <- from_bytes_n 4 x ; k n y) = if 4 <=? len b then k (unbe (firstn 4 b)) (skipn 4 b) else Panic.
Proof.
  intros. unfold split_to. destruct (N.leb_spec 4 (len b)) as [L|L]; [|reflexivity]. cbn [bind].
  change (N.to_nat 4) with 4%nat. change 4 with (N.of_nat 4) at 1. rewrite from_split by lia. reflexivity.
Qed.

Lemma multi_same : forall t, is_multi t = is_stream_or_channel (type_number t).
Proof. destruct t; reflexivity. Qed.

(** ** Requests *)
Lemma request_agree : forall s t fl b k, s < 2^32 -> fl < 1024 -> 4 <= type_number t <= 7 ->
  (forall r, rq_type r = t -> go_view (k r) = go_request r /\ consistent (k r)) ->
  rtype_try_from (type_number t) = Some t ->
  agree (do r <- rtyped_decode t (wire_header s (type_number t) fl) b ; Ret (k r))
        (do f <- request_decode (wire_header s (type_number t) fl) b ; Ret (Some f)).
Proof.
  intros s t fl b k S F T K TT. assert (T64 : type_number t < 64) by lia.
  assert (E : rtyped_decode t (wire_header s (type_number t) fl) b = rrequest_decode (wire_header s (type_number t) fl) b).
  { unfold rtyped_decode, check_type. rewrite header_frame_type_wire, TT by assumption. cbn [bind]. destruct t; reflexivity. }
  rewrite E. unfold rrequest_decode, request_decode. rewrite header_frame_type_wire, TT by assumption. cbn [bind].
  rewrite header_stream_id_wire, hdr_stream_id_wire, hdr_type_wire, hdr_flag_wire by assumption. rewrite !header_check_wire by (assumption || reflexivity).
  change FLAG_METADATA with FlagMetadata. change FLAG_FOLLOW with FlagFollow. change FLAG_COMPLETE with FlagComplete.
  rewrite multi_same. change (has_initial_n (type_number t)) with (is_stream_or_channel (type_number t)).
  assert (M : forall n body, agree
    (do r <- (do (md, rest) <- rmetadata (Check fl FlagMetadata) body ;
              Ret (mkRRequest t (s mod 2^31) md rest (Check fl FlagFollow) (Check fl FlagComplete) n)) ; Ret (k r))
    (do f <- (do (md, rest) <- decode_metadata (Check fl FlagMetadata) body ;
              Ret (FRequest {| rf_type := type_number t; rf_stream_id := s mod 2^31; rf_metadata := md; rf_data := rest; rf_follows := Check fl FlagFollow;
                     rf_complete := if type_number t =? FrameTypeRequestChannel then Check fl FlagComplete else true;
                     rf_initial_n := if is_stream_or_channel (type_number t) then n else 1 |})) ; Ret (Some f))).
  { intros n body. rewrite metadata_agree. destruct (decode_metadata (Check fl FlagMetadata) body) as [[md rest]|[]|]; [|reflexivity]. cbn [bind agree].
    left. split; [exact Logic.I|]. eexists. split; [reflexivity|].
    destruct (K (mkRRequest t (s mod 2^31) md rest (Check fl FlagFollow) (Check fl FlagComplete) n) eq_refl) as [G C]. rewrite G. split; [reflexivity|exact C]. }
  destruct (is_stream_or_channel (type_number t)) eqn:I.
  - assert (Q := four rerr (N * bytes) b (fun n y => Ret (n, y))). cbv beta in Q. rewrite Q. clear Q.
    unfold get_be, slice_from. change (N.of_nat 4) with 4. destruct (N.leb_spec 4 (len b)) as [L|L]; [|reflexivity]. cbn [bind]. change (N.to_nat 4) with 4%nat.
    exact (M (unbe (firstn 4 b)) (skipn 4 b)).
  - cbn [bind]. exact (M 0 b).
Qed.

(** ** All frames *)
Lemma other_types : forall ty, ty < 64 -> ~ (4 <= ty <= 11) ->
  match rtype_try_from ty with
  | Some TReserved | Some TSetup | Some TExt | Some TLease | Some TKeepalive | Some TMetadataPush | Some TResume | Some TResumeOk | None => True
  | _ => False
  end.
Proof.
  intros ty L O. assert (I : In ty (map N.of_nat (seq 0 64))).
  { apply in_map_iff. exists (N.to_nat ty). split; [lia|]. apply in_seq. lia. }
  cbn [seq map In N.of_nat Pos.of_succ_nat Pos.succ] in I.
  repeat (destruct I as [<-|I]; [first [exact Logic.I | exfalso; lia]|]). destruct I.
Qed.

Lemma decode_agree : forall s ty fl b, s < 2^32 -> ty < 64 -> fl < 1024 ->
  agree (rframe_decode_body (wire_header s ty fl) b) (frame_decode (wire_header s ty fl) b).
Proof.
  intros s ty fl b S T F. unfold rframe_decode_body, frame_decode. rewrite header_frame_type_wire, hdr_type_wire by assumption.
  unfold FrameTypeRequestResponse, FrameTypeRequestChannel, FrameTypeRequestN, FrameTypeCancel, FrameTypePayload, FrameTypeError.
  destruct (N.eq_dec ty 4) as [->|N4]; [cbn -[rtyped_decode request_decode wire_header]; apply (request_agree s TRequestResponse); [assumption|assumption|cbn; lia|intros r Hr; split; [reflexivity|exact Hr]|reflexivity]|].
  destruct (N.eq_dec ty 5) as [->|N5]; [cbn -[rtyped_decode request_decode wire_header]; apply (request_agree s TRequestFnf); [assumption|assumption|cbn; lia|intros r Hr; split; [reflexivity|exact Hr]|reflexivity]|].
  destruct (N.eq_dec ty 6) as [->|N6]; [cbn -[rtyped_decode request_decode wire_header]; apply (request_agree s TRequestStream); [assumption|assumption|cbn; lia|intros r Hr; split; [reflexivity|exact Hr]|reflexivity]|].
  destruct (N.eq_dec ty 7) as [->|N7]; [cbn -[rtyped_decode request_decode wire_header]; apply (request_agree s TRequestChannel); [assumption|assumption|cbn; lia|intros r Hr; split; [reflexivity|exact Hr]|reflexivity]|].
  destruct (N.eq_dec ty 8) as [->|N8].
  { cbn -[rrequestn_decode requestn_decode wire_header]. unfold rrequestn_decode, requestn_decode, check_type. rewrite header_frame_type_wire by assumption. cbn [rtype_try_from bind rtype_eqb].
    rewrite header_stream_id_wire, hdr_stream_id_wire by assumption.
    assert (Q := four rerr rframe b (fun n _ => Ret (RRequestN (s mod 2 ^ 31) n))). cbv beta in Q. rewrite Q. unfold get_be. change (N.of_nat 4) with 4.
    destruct (4 <=? len b); [|reflexivity]. cbn [bind agree]. left. split; [exact Logic.I|]. eexists. split; [reflexivity|]. split; [reflexivity|exact Logic.I]. }
  destruct (N.eq_dec ty 9) as [->|N9].
  { cbn -[wire_header header_stream_id hdr_stream_id]. unfold cancel_decode. rewrite header_stream_id_wire, hdr_stream_id_wire by assumption. left. split; [exact Logic.I|]. eexists. split; [reflexivity|]. split; [reflexivity|exact Logic.I]. }
  destruct (N.eq_dec ty 10) as [->|N10].
  { cbn -[rpayload_decode payload_decode wire_header]. unfold rpayload_decode, payload_decode, check_type. rewrite header_frame_type_wire by assumption. cbn [rtype_try_from bind rtype_eqb].
    rewrite header_stream_id_wire, hdr_stream_id_wire, hdr_flag_wire by assumption. rewrite !header_check_wire by (assumption || reflexivity).
    change FLAG_METADATA with FlagMetadata. change FLAG_FOLLOW with FlagFollow. change FLAG_COMPLETE with FlagComplete. change FLAG_NEXT with FlagNext.
    rewrite metadata_agree. destruct (decode_metadata (Check fl FlagMetadata) b) as [[md rest]|[]|]; [|reflexivity]. cbn [bind agree].
    left. split; [exact Logic.I|]. eexists. split; [reflexivity|]. split; [reflexivity|exact Logic.I]. }
  destruct (N.eq_dec ty 11) as [->|N11].
  { cbn -[rerror_decode error_decode wire_header]. unfold rerror_decode, error_decode, check_type. rewrite header_frame_type_wire by assumption. cbn [rtype_try_from bind rtype_eqb].
    rewrite header_stream_id_wire, hdr_stream_id_wire by assumption.
    assert (Q := four rerr rframe b (fun code buffer => if utf8_valid buffer then Ret (RErrorFrame (s mod 2 ^ 31) code buffer) else Fail StringConversion)). cbv beta in Q. rewrite Q.
    unfold get_be, slice_from. change (N.of_nat 4) with 4. destruct (4 <=? len b); [|reflexivity]. cbn [bind agree readable_text]. change (N.to_nat 4) with 4%nat.
    assert (V := valid_iff (skipn 4 b)). destruct (utf8_valid (skipn 4 b)).
    - left. split; [apply V; reflexivity|]. eexists. split; [reflexivity|]. split; [reflexivity|exact Logic.I].
    - right. split; [|reflexivity]. intro U. apply V in U. discriminate. }
  assert (O := other_types ty T ltac:(lia)).
  replace ((4 <=? ty) && (ty <=? 7)) with false by lia.
  destruct (N.eqb_spec ty 8); [contradiction|]. destruct (N.eqb_spec ty 9); [contradiction|]. destruct (N.eqb_spec ty 10); [contradiction|]. destruct (N.eqb_spec ty 11); [contradiction|].
  cbn [agree]. destruct (rtype_try_from ty) as [[]|]; try destruct O; reflexivity.
Qed.

Lemma parse_agree : forall bs, wf bs -> agree (rframe_decode bs) (frame_parse bs).
Proof.
  intros bs W. unfold rframe_decode, frame_parse, ParseFrameHeader. rewrite split_to_slices. change LEN_HEADER with FrameHeaderLen.
  unfold slice_to, slice_from. unfold FrameHeaderLen. destruct (N.leb_spec 6 (len bs)) as [L|L]; [|reflexivity]. cbn [bind]. change (N.to_nat 6) with 6%nat.
  assert (Wh : wf (firstn 6 bs)). { rewrite <- (firstn_skipn 6 bs) in W. unfold wf in W. apply Forall_app in W. exact (proj1 W). }
  destruct (header_surjective (firstn 6 bs) Wh) as (top & T2 & E & T64 & F & S).
  { rewrite firstn_length. unfold len in L. lia. }
  rewrite NewFrameHeader_wire in E by assumption. rewrite E. apply decode_agree; [|assumption|assumption].
  change (2^32) with (2 * 2^31). set (q := hdr_stream_id (firstn 6 bs)) in *. clearbody q. change (2^31) with 2147483648 in *. lia.
Qed.

(** ** Encoding *)
Lemma header_new_wire : forall s t fl n, rtype_into (E := rerr) t = Ret n -> n < 64 -> fl < 1024 -> header_new (E := rerr) s t fl = Ret (wire_header s n fl).
Proof.
  intros s t fl n I L F. unfold header_new. rewrite I. cbn [bind]. f_equal. unfold wire_header. rewrite be4_bytes4, be2_bytes2. f_equal. f_equal.
  assert (P := pack_arith n fl L F). unfold pack_type_flags in P. rewrite <- P. f_equal. unfold u16. rewrite N.mod_small; [reflexivity|]. change (2^16) with 65536. lia.
Qed.

Lemma is_empty_nonempty : forall md : bytes, negb (is_empty md) = nonempty md.
Proof. intros []; reflexivity. Qed.

Lemma rbody_wire : forall md data, len md < 2^32 -> rbody md data = wire_metadata md ++ data.
Proof.
  intros md data L. unfold rbody, wire_metadata. destruct md as [|x md]; [reflexivity|]. cbn [is_empty nonempty].
  unfold to_u24_bytes. rewrite skip_be4. unfold u32. rewrite N.mod_small by exact L. rewrite <- app_assoc. reflexivity.
Qed.

Lemma rpayload_flags_wire : forall p, rpayload_flags p = bit (rp_next p) 32 + bit (rp_complete p) 64 + bit (rp_follows p) 128 + bit (nonempty (rp_metadata p)) 256.
Proof. intros p. unfold rpayload_flags. rewrite is_empty_nonempty. destruct (rp_next p), (rp_complete p), (rp_follows p), (nonempty (rp_metadata p)); reflexivity. Qed.

Lemma rrequest_flags_wire : forall r, rrequest_flags r = bit ((type_number (rq_type r) =? 7) && rq_complete r) 64 + bit (nonempty (rq_metadata r)) 256.
Proof. intros r. unfold rrequest_flags. rewrite is_empty_nonempty. destruct (rq_type r), (rq_complete r), (nonempty (rq_metadata r)); reflexivity. Qed.

Lemma request_encode_wire : forall r, frame_in_range (go_request r) -> rrequest_encode r = Ret (wire (go_request r)).
Proof.
  intros r H. unfold go_request in *. cbn [frame_in_range wire rf_type rf_stream_id rf_metadata rf_data rf_complete rf_initial_n] in *. destruct H as (S & T & N0 & F).
  apply fits32_unfold in F. unfold rrequest_encode. rewrite rrequest_flags_wire.
  assert (I : rtype_into (E := rerr) (rq_type r) = Ret (type_number (rq_type r))) by (destruct (rq_type r); cbn in T |- *; try reflexivity; lia).
  rewrite (header_new_wire _ _ _ _ I). 2: lia. 2: { destruct (_ && _), (nonempty _); reflexivity. }
  cbn [bind]. rewrite multi_same, be4_bytes4, rbody_wire by (change (2^32) with 4294967296; lia). reflexivity.
Qed.

Lemma rframe_encode_wire : forall g, frame_in_range (go_view g) -> rframe_encode g = Ret (wire (go_view g)).
Proof.
  intros [p|sid|sid code data|sid n|r|r|r|r] H; cbn [rframe_encode go_view] in *; try (apply request_encode_wire; exact H).
  - cbn [frame_in_range wire pf_stream_id pf_metadata pf_data pf_next pf_complete pf_follows] in *. destruct H as (S & F). apply fits32_unfold in F.
    unfold rpayload_encode. rewrite rpayload_flags_wire, (header_new_wire _ TPayload _ 10 eq_refl). 2: lia. 2: { destruct (rp_next p), (rp_complete p), (rp_follows p), (nonempty _); reflexivity. }
    cbn [bind]. rewrite rbody_wire by (change (2^32) with 4294967296; lia). reflexivity.
  - apply (header_new_wire _ TCancel _ 9 eq_refl); lia.
  - rewrite (header_new_wire _ TErr _ 11 eq_refl) by lia. cbn [bind wire]. rewrite be4_bytes4. reflexivity.
  - rewrite (header_new_wire _ TRequestN _ 8 eq_refl) by lia. cbn [bind wire]. rewrite be4_bytes4. reflexivity.
Qed.

Lemma wf_tl : forall (a : bytes) b, wf (a ++ b) <-> wf a /\ wf b.
Proof. intros. unfold wf. apply Forall_app. Qed.

(** ** Length-prefixed frames *)
Lemma read_frame_app : forall f rest, len f < 2^24 -> read_frame (bytes3 (len f) ++ f ++ rest) = Some (f, rest).
Proof.
  intros f rest L. unfold read_frame. rewrite split_to_slices, slice_to_app, slice_from_app by reflexivity. cbn [bind].
  rewrite unbe_bytes3 by exact L. rewrite split_to_slices, slice_to_app, slice_from_app by reflexivity. reflexivity.
Qed.

Lemma read_frame_inv : forall buf f rest, wf buf -> read_frame buf = Some (f, rest) -> buf = bytes3 (len f) ++ f ++ rest /\ len f < 2^24.
Proof.
  intros buf f rest W H. unfold read_frame, split_to in H. destruct (N.leb_spec 3 (len buf)) as [L|L]; [|discriminate].
  change (N.to_nat 3) with 3%nat in H. destruct buf as [|a [|b [|c buf]]]; try (cbn in L; lia). cbn [firstn skipn] in H.
  apply wf_cons in W. destruct W as [A W]. apply wf_cons in W. destruct W as [B W]. apply wf_cons in W. destruct W as [C W].
  assert (U : unbe [a; b; c] = a * 65536 + b * 256 + c).
  { rewrite !unbe_cons by (repeat (apply wf_cons; split; [assumption|]); constructor). unfold len. cbn [length]. change (unbe []) with 0.
    change (256 ^ N.of_nat 2) with 65536. change (256 ^ N.of_nat 1) with 256. change (256 ^ N.of_nat 0) with 1. lia. }
  rewrite U in H. set (n := a * 65536 + b * 256 + c) in *. destruct (N.leb_spec n (len buf)) as [Q|Q]; [|discriminate].
  assert (F : f = firstn (N.to_nat n) buf) by congruence. assert (R : rest = skipn (N.to_nat n) buf) by congruence. subst f rest. rewrite len_firstn, N2Nat.id.
  replace (N.min n (len buf)) with n by lia. rewrite firstn_skipn. change (2^24) with 16777216. unfold is_byte in *. unfold bytes3, n. split; [|lia].
  cbn [app]. f_equal; [lia|]. f_equal; [lia|]. f_equal; lia.
Qed.
