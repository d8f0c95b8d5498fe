From Coq Require Import List NArith ZArith Lia Bool ZifyBool ZifyNat ZifyN.
From Verif Require Import Base BaseLemmas FramesModel FramesSpec FramesProofs BatchSpec BatchProofs TcpModel TcpSpec TcpProofs TcpScan.
Import ListNotations.
Open Scope N_scope.

Lemma decode_metadata_tail : forall has p md rest, decode_metadata has p = Ret (md, rest) -> exists pre, p = pre ++ md ++ rest.
Proof.
  intros has p md rest H. unfold decode_metadata in H. destruct has; [|injection H as <- <-; exists []; reflexivity].
  apply bind_ret in H; destruct H as (l3 & H1 & H). apply bind_ret in H; destruct H as (p1 & H2 & H).
  apply bind_ret in H; destruct H as (m & H3 & H). apply bind_ret in H; destruct H as (p2 & H4 & H).
  assert (E1 : m = md) by congruence. assert (E2 : p2 = rest) by congruence. subst m p2. clear H.
  apply slice_from_inv in H2. destruct H2 as (a & Ha & _). apply slice_to_inv in H3. destruct H3 as (b & Hb & Lb).
  apply slice_from_inv in H4. destruct H4 as (c & Hc & Lc). exists a. rewrite Ha. f_equal.
  rewrite Hb in Hc. apply app_eq_len in Hc; [|congruence]. destruct Hc as [-> ->]. exact Hb.
Qed.

Lemma parse_tail : forall bs f, frame_parse bs = Ret (Some f) -> exists pre, bs = pre ++ frame_md f ++ frame_data f.
Proof.
  intros bs f H. unfold frame_parse in H.
  apply bind_ret in H; destruct H as (h & H1 & H). apply bind_ret in H; destruct H as (p & H2 & H).
  apply slice_from_inv in H2. destruct H2 as (a & Ha & _).
  assert (T : exists pre, p = pre ++ frame_md f ++ frame_data f); [|destruct T as (pre & ->); exists (a ++ pre); rewrite Ha, <- app_assoc; reflexivity].
  unfold frame_decode in H.
  destruct (_ && _); [|destruct (_ =? _); [|destruct (_ =? _); [|destruct (_ =? _); [|destruct (_ =? _); [|discriminate]]]]];
    apply bind_ret in H; destruct H as (g & H & G); assert (g = f) by congruence; subst g; clear G.
  - unfold request_decode in H. apply bind_ret in H; destruct H as ((n, q) & Q & H). apply bind_ret in H; destruct H as ((md, rest) & M & H).
    assert (F : FRequest {| rf_type := hdr_type h; rf_stream_id := hdr_stream_id h; rf_metadata := md; rf_data := rest;
         rf_follows := Check (hdr_flag h) FlagFollow; rf_complete := if hdr_type h =? FrameTypeRequestChannel then Check (hdr_flag h) FlagComplete else true; rf_initial_n := n |} = f) by congruence.
    subst f. cbn [frame_md frame_data rf_metadata rf_data]. apply decode_metadata_tail in M. destruct M as (pre & M).
    assert (QT : exists b, p = b ++ q).
    { destruct (has_initial_n (hdr_type h)); [|exists []; cbn; congruence].
      apply bind_ret in Q; destruct Q as (k & _ & Q). apply bind_ret in Q; destruct Q as (q' & Q1 & Q). assert (q' = q) by congruence. subst q'.
      apply slice_from_inv in Q1. destruct Q1 as (b & B & _). exists b; exact B. }
    destruct QT as (b & ->). exists (b ++ pre). rewrite M, <- app_assoc. reflexivity.
  - unfold requestn_decode in H. apply bind_ret in H; destruct H as (n & _ & H). assert (F : FRequestN (hdr_stream_id h) n = f) by congruence. subst f.
    exists p. cbn. rewrite app_nil_r. reflexivity.
  - unfold cancel_decode in H. assert (F : FCancel (hdr_stream_id h) = f) by congruence. subst f. exists p. cbn. rewrite app_nil_r. reflexivity.
  - unfold payload_decode in H. apply bind_ret in H; destruct H as ((md, rest) & M & H).
    apply decode_metadata_tail in M. destruct M as (pre & M).
    match type of H with Ret ?x = _ => assert (F : x = f) by congruence end. subst f. exists pre. exact M.
  - unfold error_decode in H. apply bind_ret in H; destruct H as (c & _ & H). apply bind_ret in H; destruct H as (d & _ & H).
    assert (F : FError (hdr_stream_id h) c d = f) by congruence. subst f. exists p. cbn. rewrite app_nil_r. reflexivity.
Qed.

Lemma view_sub : forall mem v a b c, view_bytes mem v = a ++ b ++ c -> len (view_bytes mem v) = v_len v ->
  view_bytes mem (mkView (v_buf v) (v_off v + len a) (len b)) = b.
Proof.
  intros mem v a b c E L. unfold view_bytes in *. cbn [v_buf v_off v_len].
  set (m := nth (v_buf v) mem []) in *.
  assert (LV : v_len v = len a + (len b + len c)) by (rewrite <- L, E, !len_app; reflexivity).
  replace (N.to_nat (v_off v + len a)) with (N.to_nat (v_off v) + length a)%nat by (unfold len; lia).
  rewrite <- skipn_skipn. set (m' := skipn (N.to_nat (v_off v)) m) in *.
  assert (M : m' = (a ++ b ++ c) ++ skipn (N.to_nat (v_len v)) m') by (rewrite <- E, firstn_skipn; reflexivity).
  rewrite M, <- app_assoc. rewrite skipn_len_app by reflexivity. rewrite <- app_assoc. apply firstn_len_app. unfold len; lia.
Qed.

Lemma observe_live : forall mem raw f, frame_parse (view_bytes mem raw) = Ret (Some f) -> len (view_bytes mem raw) = v_len raw ->
  observe mem (to_live raw f) = f.
Proof.
  intros mem raw f H L. destruct (parse_tail _ _ H) as (pre & P).
  assert (LL : v_len raw = len pre + (len (frame_md f) + len (frame_data f))) by (rewrite <- L, P, !len_app; reflexivity).
  assert (M : view_bytes mem (lf_metadata (to_live raw f)) = frame_md f).
  { unfold to_live; cbn [lf_metadata].
    replace (v_off raw + v_len raw - len (frame_data f) - len (frame_md f)) with (v_off raw + len pre) by lia.
    eapply view_sub; eassumption. }
  assert (D : view_bytes mem (lf_data (to_live raw f)) = frame_data f).
  { unfold to_live; cbn [lf_data].
    replace (v_off raw + v_len raw - len (frame_data f)) with (v_off raw + len (pre ++ frame_md f)) by (rewrite len_app; lia).
    apply (view_sub mem raw _ _ []); [rewrite app_nil_r, <- app_assoc; exact P|exact L]. }
  unfold observe. rewrite M, D. cbn [to_live lf_frame]. destruct f as [| | |p|r]; try reflexivity; [destruct p|destruct r]; reflexivity.
Qed.

(** ** One call of Read *)

Definition told (fin : tcp_error) : tcp_error := match visible fin with None => EOF | Some e => e end.

Inductive read_out (s : scanner) (r : reader) (s' : scanner) (r' : reader) : outcome tcp_error live -> Prop :=
| RO_frame : forall v l body f, token_out s r v s' r' body -> 6 <= len body < 2^24 -> frame_parse body = Ret (Some f) -> lf_frame l = f ->
    l = to_live (mkView (v_buf v) (v_off v + 3) (len body)) f -> observe (memory s') l = f -> read_out s r s' r' (Ret l)
| RO_short : forall v body, token_out s r v s' r' body -> 1 <= len body < 6 -> read_out s r s' r' (Fail IncompleteHeader)
| RO_unknown : forall v body, token_out s r v s' r' body -> 6 <= len body < 2^24 -> frame_parse body = Ret None -> read_out s r s' r' (Fail UnknownFrame)
| RO_malformed : forall v body, token_out s r v s' r' body -> 6 <= len body < 2^24 -> frame_parse body = Panic -> read_out s r s' r' Panic
| RO_zero : forall rest, pend s r = delimited [] ++ rest -> read_out s r s' r' (Fail InvalidFrameLength)
| RO_end : incomplete (seen s r) -> read_out s r s' r' (Fail (told (r_final r))).

Lemma tcp_read_ok : forall fuel s r, ok s -> no_stall (r_chunks r) -> wf (pend s r) -> (length (concat (r_chunks r)) + 2 <= fuel)%nat ->
  exists o s' r', tcp_read fuel s r = Some (o, s', r') /\ read_out s r s' r' o.
Proof.
  intros fuel s r O NS W F. destruct (Scan_ok fuel s r O NS W F) as (res & s' & r' & E & H).
  unfold tcp_read, decoder_read. rewrite E. destruct res as [v|].
  - destruct H as (body & T). cbn [v_len v_buf v_off]. change lengthFieldSize with 3. change FrameHeaderLen with 6.
    pose proof (to_body _ _ _ _ _ _ T) as B. pose proof (to_vlen _ _ _ _ _ _ T) as VL. rewrite VL. replace (3 + len body - 3) with (len body) by lia.
    destruct (len body <? 6) eqn:Z.
    + eexists. eexists. eexists. split; [reflexivity|]. eapply RO_short; [exact T|lia].
    + assert (VB : view_bytes (memory s') (mkView (v_buf v) (v_off v + 3) (len body)) = body).
      { pose proof (view_sub (memory s') v (bytes3 (len body)) body []) as V. rewrite bytes3_len in V. apply V.
        - rewrite app_nil_r. exact (to_bytes _ _ _ _ _ _ T).
        - rewrite (to_bytes _ _ _ _ _ _ T), delimited_len, VL. reflexivity. }
      rewrite VB. destruct (frame_parse body) as [[f|]|e|] eqn:P; [| |destruct e|].
      * eexists. eexists. eexists. split; [reflexivity|]. eapply RO_frame with (f := f); [exact T|lia|exact P|reflexivity|reflexivity|].
        apply observe_live; [rewrite VB; exact P|rewrite VB; reflexivity].
      * eexists. eexists. eexists. split; [reflexivity|]. eapply RO_unknown; [exact T|lia|exact P].
      * eexists. eexists. eexists. split; [reflexivity|]. eapply RO_malformed; [exact T|lia|exact P].
  - eexists. eexists. eexists. split; [reflexivity|]. destruct H as [(H1 & rest & H2)|(H1 & H2)].
    + rewrite H1. eapply RO_zero; exact H2.
    + rewrite H1. pose proof (RO_end s r s' r' H2) as X. replace (match Some (r_final r) with None | Some EOF | Some (ConnErr true) => EOF | Some e => e end) with (told (r_final r)); [exact X|].
      unfold told, visible. destruct (r_final r) as [| | | | | |[]]; reflexivity.
Qed.

(** ** Reading to the end *)

Lemma not_incomplete : forall body rest, len body < 2^24 -> ~ incomplete (delimited body ++ rest).
Proof. intros body rest L I. exact (I body rest L eq_refl). Qed.

Lemma reads_frame_inv : forall fin body rest fs e, 6 <= len body < 2^24 -> reads fin (delimited body ++ rest) fs e ->
  match frame_parse body with
  | Ret (Some f) => exists fs', fs = f :: fs' /\ reads fin rest fs' e
  | Ret None => fs = [] /\ e = Returns (Some UnknownFrame)
  | _ => fs = [] /\ e = Panics
  end.
Proof.
  intros fin body rest fs e L H. remember (delimited body ++ rest) as bs eqn:B.
  assert (L0 : len (@nil N) < 2^24) by reflexivity.
  destruct H as [bs I|rest1|body1 rest1 L1|body1 rest1 L1 P|body1 rest1 L1 P|body1 rest1 f fs1 e1 L1 P R].
  - subst bs. exfalso. exact (not_incomplete body rest (proj2 L) I).
  - apply delimited_inj in B; [|exact L0|apply L]. destruct B as [B _]. subst body. rewrite len_nil in L. lia.
  - apply delimited_inj in B; [|change (2^24) with 16777216; lia|apply L]. destruct B as [B _]. subst body1. lia.
  - apply delimited_inj in B; [|apply L1|apply L]. destruct B as [B _]. subst body1. rewrite P. auto.
  - apply delimited_inj in B; [|apply L1|apply L]. destruct B as [B _]. subst body1. rewrite P. auto.
  - apply delimited_inj in B; [|apply L1|apply L]. destruct B as [B B2]. subst body1 rest1. rewrite P. eauto.
Qed.

Lemma reads_short_inv : forall fin body rest fs e, len body < 6 -> reads fin (delimited body ++ rest) fs e ->
  fs = [] /\ e = Returns (Some (if len body =? 0 then InvalidFrameLength else IncompleteHeader)).
Proof.
  intros fin body rest fs e L H. remember (delimited body ++ rest) as bs eqn:B.
  assert (L2 : len body < 2^24) by (change (2^24) with 16777216; lia).
  assert (L0 : len (@nil N) < 2^24) by reflexivity.
  destruct H as [bs I|rest1|body1 rest1 L1|body1 rest1 L1 P|body1 rest1 L1 P|body1 rest1 f fs1 e1 L1 P R].
  - subst bs. exfalso. exact (not_incomplete body rest L2 I).
  - apply delimited_inj in B; [|exact L0|exact L2]. destruct B as [B _]. subst body. auto.
  - apply delimited_inj in B; [|change (2^24) with 16777216; lia|exact L2]. destruct B as [B _]. subst body1.
    replace (len body =? 0) with false by (symmetry; apply N.eqb_neq; lia). auto.
  - apply delimited_inj in B; [|apply L1|exact L2]. destruct B as [B _]. subst body1. lia.
  - apply delimited_inj in B; [|apply L1|exact L2]. destruct B as [B _]. subst body1. lia.
  - apply delimited_inj in B; [|apply L1|exact L2]. destruct B as [B _]. subst body1. lia.
Qed.

Lemma reads_end_inv : forall fin bs fs e, incomplete bs -> reads fin bs fs e -> fs = [] /\ e = Returns (visible fin).
Proof.
  intros fin bs fs e I H. assert (L0 : len (@nil N) < 2^24) by reflexivity. destruct H as [bs J|rest1|body1 rest1 L1|body1 rest1 L1 P|body1 rest1 L1 P|body1 rest1 f fs1 e1 L1 P R]; auto; exfalso.
  - exact (not_incomplete _ _ L0 I).
  - refine (not_incomplete _ _ _ I). change (2^24) with 16777216; lia.
  - exact (not_incomplete _ _ (proj2 L1) I).
  - exact (not_incomplete _ _ (proj2 L1) I).
  - exact (not_incomplete _ _ (proj2 L1) I).
Qed.

Theorem reads_unique : forall fin bs fs e fs' e', reads fin bs fs e -> reads fin bs fs' e' -> fs = fs' /\ e = e'.
Proof.
  intros fin bs fs e fs' e' H. revert fs' e'. induction H as [bs J|rest1|body1 rest1 L1|body1 rest1 L1 P|body1 rest1 L1 P|body1 rest1 f fs1 e1 L1 P R IH]; intros fs' e' K.
  - apply reads_end_inv in K; [|exact J]. destruct K as [-> ->]; auto.
  - apply reads_short_inv in K; [|rewrite len_nil; lia]. destruct K as [-> ->]; auto.
  - apply reads_short_inv in K; [|lia]. destruct K as [-> ->]. replace (len body1 =? 0) with false by (symmetry; apply N.eqb_neq; lia). auto.
  - apply reads_frame_inv in K; [|exact L1]. rewrite P in K. destruct K as [-> ->]; auto.
  - apply reads_frame_inv in K; [|exact L1]. rewrite P in K. destruct K as [-> ->]; auto.
  - apply reads_frame_inv in K; [|exact L1]. rewrite P in K. destruct K as (fs2 & -> & K). destruct (IH _ _ K) as [-> ->]. auto.
Qed.

Lemma reads_zero' : forall fin bs rest, bs = delimited [] ++ rest -> reads fin bs [] (Returns (Some InvalidFrameLength)).
Proof. intros; subst; constructor. Qed.

Lemma pend_short : forall s r v s' r' body, token_out s r v s' r' body -> (length (concat (r_chunks r')) <= length (pend s' r'))%nat /\ (length (pend s' r') + 4 <= length (pend s r))%nat.
Proof.
  intros s r v s' r' body T. split; [unfold pend; rewrite app_length; lia|].
  pose proof (to_pend _ _ _ _ _ _ T) as P. apply (f_equal len) in P. rewrite len_app, delimited_len in P. pose proof (to_body _ _ _ _ _ _ T) as B. unfold len in *. lia.
Qed.

Lemma told_ends : forall fin, match told fin with EOF => Some ([] : list frame, Returns None) | e => Some ([], Returns (Some e)) end = Some ([], Returns (visible fin)).
Proof. intros [| | | | | |[]]; reflexivity. Qed.

Definition loop_one (a : outcome tcp_error live) (mem : list bytes) (k : option (list frame * ending)) : option (list frame * ending) :=
  match a with
  | Ret l => match k with None => None | Some (fs, e) => Some (observe mem l :: fs, e) end
  | Fail EOF => Some ([], Returns None)
  | Fail e => Some ([], Returns (Some e))
  | Panic => Some ([], Panics)
  end.
Lemma start_loop_step : forall fuel s r o s' r', tcp_read (Datatypes.S fuel) s r = Some (o, s', r') ->
  start_loop (Datatypes.S fuel) s r = loop_one o (memory s') (start_loop fuel s' r').
Proof. intros fuel s r o s' r' H. cbn [start_loop]. rewrite H. destruct o as [l|e|]; [|destruct e|]; reflexivity. Qed.

Lemma Scan_mono : forall a b s r x, (a <= b)%nat -> Scan a s r = Some x -> Scan b s r = Some x.
Proof.
  induction a as [|a IHa]; intros b s r x AB Q; [discriminate|]. destruct b as [|b]; [lia|].
  cbn [Scan] in *. destruct ((s_start s <? s_end s) || _).
  - destruct (doSplit _ _) as [[adv [l|]]|er|]; try exact Q. cbn [s_err] in *. destruct (s_err s); [exact Q|].
    destruct (grow _) as [g|]; [|exact Q]. destruct (read_loop _ _ _) as [s2 r2]. apply IHa; [lia|exact Q].
  - destruct (s_err s); [exact Q|]. destruct (grow _) as [g|]; [|exact Q]. destruct (read_loop _ _ _) as [s2 r2]. apply IHa; [lia|exact Q].
Qed.
Lemma tcp_read_mono : forall a b s r x, (a <= b)%nat -> tcp_read a s r = Some x -> tcp_read b s r = Some x.
Proof.
  intros a b s r x AB Q. unfold tcp_read, decoder_read in *. destruct (Scan a s r) as [y|] eqn:E; [|discriminate].
  rewrite (Scan_mono _ _ _ _ _ AB E). exact Q.
Qed.

Lemma removelast_prefix : forall {A} (l : list (list A)), exists y, concat l = concat (removelast l) ++ y.
Proof.
  induction l as [|c l IH]; [exists []; reflexivity|]. destruct l as [|c' l]; [exists (concat [c]); reflexivity|].
  destruct IH as (y & Y). exists y. change (removelast (c :: c' :: l)) with (c :: removelast (c' :: l)).
  change (concat (c :: c' :: l)) with (c ++ concat (c' :: l)). rewrite Y. cbn [concat]. rewrite app_assoc. reflexivity.
Qed.
Lemma seen_prefix : forall s r, exists y, pend s r = seen s r ++ y.
Proof.
  intros s r. unfold seen, pend. destruct (r_with r); [|exists []; rewrite app_nil_r; reflexivity].
  destruct (removelast_prefix (r_chunks r)) as (y & Y). exists y. rewrite Y, app_assoc. reflexivity.
Qed.

(** Where reading ends at once, a prefix of what was there holds no frame. *)
Lemma ends_prefix : forall bs a x fin fs e, (forall body rest, 6 <= len body < 2^24 -> bs = delimited body ++ rest -> forall f, frame_parse body <> Ret (Some f)) ->
  bs = a ++ x -> reads fin a fs e -> fs = [].
Proof.
  intros bs a x fin fs e H E R. destruct R as [a J|rest1|body1 rest1 L1|body1 rest1 L1 P|body1 rest1 L1 P|body1 rest1 f fs1 e1 L1 P R]; try reflexivity.
  exfalso. refine (H body1 (rest1 ++ x) L1 _ f P). rewrite E, app_assoc. reflexivity.
Qed.

Theorem loop_reads : forall n s r, ok s -> no_stall (r_chunks r) -> wf (pend s r) -> (length (pend s r) <= n)%nat ->
  exists fs e, (forall fuel, (n + 3 <= fuel)%nat -> start_loop fuel s r = Some (fs, e))
    /\ (r_with r = false -> reads (r_final r) (pend s r) fs e)
    /\ (forall fin0 fs0 e0, reads fin0 (pend s r) fs0 e0 -> prefix fs fs0)
    /\ (forall a x fin1 fs1 e1, seen s r = a ++ x -> reads fin1 a fs1 e1 -> prefix fs1 fs).
Proof.
  induction n as [n IH] using (well_founded_induction lt_wf). intros s r O NS W L.
  assert (F : (length (concat (r_chunks r)) + 2 <= n + 3)%nat) by (unfold pend in L; rewrite app_length in L; lia).
  destruct (tcp_read_ok (n + 3)%nat s r O NS W F) as (o & s' & r' & E & R).
  assert (G : forall fuel, (n + 3 <= fuel)%nat -> exists fuel', fuel = Datatypes.S fuel' /\ start_loop fuel s r = loop_one o (memory s') (start_loop fuel' s' r')).
  { intros fuel HF. destruct fuel as [|fuel']; [lia|]. exists fuel'. split; [reflexivity|]. apply start_loop_step. exact (tcp_read_mono _ _ _ _ _ HF E). }
  assert (NIL : forall {A} (l : list A), prefix [] l) by (intros A l; exists l; reflexivity).
  assert (NOFRAME : forall v body, token_out s r v s' r' body -> (6 <= len body -> forall f, frame_parse body <> Ret (Some f)) ->
    forall a x fin1 fs1 e1, seen s r = a ++ x -> reads fin1 a fs1 e1 -> prefix fs1 (@nil frame)).
  { intros v body T NF a x fin1 fs1 e1 SE RA. destruct (seen_prefix s r) as (y & Y). rewrite SE, <- app_assoc in Y.
    assert (fs1 = []); [|subst; apply NIL]. refine (ends_prefix _ _ _ _ _ _ _ Y RA).
    intros body2 rest2 L2 P2 f. rewrite (to_pend _ _ _ _ _ _ T) in P2. apply delimited_inj in P2; [|apply (to_body _ _ _ _ _ _ T)|apply L2].
    destruct P2 as [<- _]. apply NF. apply L2. }
  destruct R as [v l body f T B P LF LL OB|v body T B|v body T B P|v body T B P|rest Z|I].
  - destruct (pend_short _ _ _ _ _ _ T) as [S1 S2]. pose proof (to_pend _ _ _ _ _ _ T) as PE.
    destruct (IH (n - 4)%nat) with (s := s') (r := r') as (fs & e & R1 & R2 & R3 & R4).
    + lia.
    + exact (to_ok _ _ _ _ _ _ T).
    + exact (to_stall _ _ _ _ _ _ T).
    + rewrite PE in W. apply wf_app in W. apply W.
    + lia.
    + exists (f :: fs), e. split; [|split; [|split]].
      * intros fuel HF. destruct (G fuel HF) as (fuel' & -> & ->). cbn [loop_one]. rewrite R1 by lia. rewrite OB. reflexivity.
      * intros RW. rewrite PE. rewrite (to_final _ _ _ _ _ _ T), (to_with _ _ _ _ _ _ T) in R2. constructor; auto.
      * intros fin0 fs0 e0 K. rewrite PE in K. apply reads_frame_inv in K; [|exact B]. rewrite P in K. destruct K as (fs2 & -> & K).
        destruct (R3 _ _ _ K) as (c & ->). exists c. reflexivity.
      * intros a x fin1 fs1 e1 SE K. destruct (to_seen _ _ _ _ _ _ T) as (y & Y). rewrite SE in Y.
        destruct K as [a J|rest1|body1 rest1 L1|body1 rest1 L1 P1|body1 rest1 L1 P1|body1 rest1 f1 fs1 e1 L1 P1 K]; try apply NIL.
        rewrite <- !app_assoc in Y. apply delimited_inj in Y; [|apply B|apply L1]. destruct Y as [<- Y].
        assert (f1 = f) by congruence. subst f1. destruct (R4 _ _ _ _ _ Y K) as (c & ->). exists c. reflexivity.
  - exists [], (Returns (Some IncompleteHeader)). split; [|split; [|split]].
    + intros fuel HF. destruct (G fuel HF) as (fuel' & -> & ->). reflexivity.
    + intros _. rewrite (to_pend _ _ _ _ _ _ T); constructor; exact B.
    + intros; apply NIL.
    + apply (NOFRAME v body T). intros; lia.
  - exists [], (Returns (Some UnknownFrame)). split; [|split; [|split]].
    + intros fuel HF. destruct (G fuel HF) as (fuel' & -> & ->). reflexivity.
    + intros _. rewrite (to_pend _ _ _ _ _ _ T); constructor; assumption.
    + intros; apply NIL.
    + apply (NOFRAME v body T). intros; congruence.
  - exists [], Panics. split; [|split; [|split]].
    + intros fuel HF. destruct (G fuel HF) as (fuel' & -> & ->). reflexivity.
    + intros _. rewrite (to_pend _ _ _ _ _ _ T); constructor; assumption.
    + intros; apply NIL.
    + apply (NOFRAME v body T). intros; congruence.
  - exists [], (Returns (Some InvalidFrameLength)). split; [|split; [|split]].
    + intros fuel HF. destruct (G fuel HF) as (fuel' & -> & ->). reflexivity.
    + intros _. eapply reads_zero'; exact Z.
    + intros; apply NIL.
    + intros a x fin1 fs1 e1 SE K. destruct (seen_prefix s r) as (y & Y). rewrite SE, <- app_assoc in Y.
      assert (fs1 = []); [|subst; apply NIL]. refine (ends_prefix _ _ _ _ _ _ _ Y K). intros body2 rest2 L2 P2. rewrite Z in P2.
      apply delimited_inj in P2; [|reflexivity|apply L2]. destruct P2 as [<- _]. rewrite len_nil in L2. lia.
  - exists [], (Returns (visible (r_final r))). split; [|split; [|split]].
    + intros fuel HF. destruct (G fuel HF) as (fuel' & -> & ->). cbn [loop_one]. rewrite <- (told_ends (r_final r)). destruct (told (r_final r)); reflexivity.
    + intros RW. assert (SEEN : seen s r = pend s r) by (unfold seen, pend; rewrite RW; reflexivity). rewrite <- SEEN. constructor; exact I.
    + intros; apply NIL.
    + intros a x fin1 fs1 e1 SE K. rewrite SE in I. apply incomplete_prefix in I. apply reads_end_inv in K; [|exact I]. destruct K as [-> _]. apply NIL.
Qed.

Lemma new_ok : ok new_scanner.
Proof.
  unfold ok, new_scanner. cbn [s_start s_end s_buf s_err]. rewrite len_repeat, N2Nat.id. unfold minBuffSize, maxBuffSize. repeat split; lia.
Qed.
Lemma pend_new : forall r, pend new_scanner r = concat (r_chunks r).
Proof. intros r. unfold pend, data_of, new_scanner. cbn [s_start s_end s_buf]. change (N.to_nat (0 - 0)) with O. rewrite firstn_O. reflexivity. Qed.
Lemma seen_new : forall r, seen new_scanner r = concat (if r_with r then removelast (r_chunks r) else r_chunks r).
Proof. intros r. unfold seen, data_of, new_scanner. cbn [s_start s_end s_buf]. change (N.to_nat (0 - 0)) with O. rewrite firstn_O. reflexivity. Qed.

Theorem stream_read : forall chunks fin, no_stall chunks -> wf (concat chunks) ->
  exists fs e, reads fin (concat chunks) fs e /\ reads_all (mkReader chunks fin false) fs e.
Proof.
  intros chunks fin NS W. destruct (loop_reads (length (concat chunks)) new_scanner (mkReader chunks fin false) new_ok) as (fs & e & A & B & _).
  - exact NS.
  - rewrite pend_new. exact W.
  - rewrite pend_new. apply le_n.
  - exists fs, e. split; [specialize (B eq_refl); rewrite pend_new in B; exact B|]. eexists. exact A.
Qed.

Lemma reads_all_unique : forall r fs e fs' e', reads_all r fs e -> reads_all r fs' e' -> fs = fs' /\ e = e'.
Proof.
  intros r fs e fs' e' (a & A) (b & B). specialize (A (a + b)%nat ltac:(lia)). specialize (B (a + b)%nat ltac:(lia)). rewrite A in B. injection B; auto.
Qed.

Theorem stream_iff : forall chunks fin fs e, no_stall chunks -> wf (concat chunks) -> (reads_all (mkReader chunks fin false) fs e <-> reads fin (concat chunks) fs e).
Proof.
  intros chunks fin fs e NS W. destruct (stream_read chunks fin NS W) as (fs' & e' & R & A). split; intros H.
  - destruct (reads_all_unique _ _ _ _ _ H A) as [-> ->]. exact R.
  - destruct (reads_unique _ _ _ _ _ _ H R) as [-> ->]. exact A.
Qed.

Lemma framed_delimited : forall f, framed f = delimited (wire f).
Proof. reflexivity. Qed.

Lemma reads_batch : forall fin fs tail, Forall sendable fs -> incomplete tail -> reads fin (batch fs ++ tail) (map on_wire fs) (Returns (visible fin)).
Proof.
  induction fs as [|f fs IH]; intros tail S I.
  - constructor. exact I.
  - inversion S as [|? ? S1 S2]; subst. rewrite batch_cons, framed_delimited, <- app_assoc. cbn [map]. constructor; [|apply sendable_parse; exact S1|apply IH; assumption].
    split; [|exact (proj2 S1)]. unfold wire. destruct f as [sid|sid n|sid c d|p|r]; rewrite ?len_app, wire_header_len; lia.
Qed.

Theorem frames_read : forall fs tail chunks fin, Forall sendable fs -> incomplete tail -> concat chunks = batch fs ++ tail -> wf (concat chunks) -> no_stall chunks ->
  reads_all (mkReader chunks fin false) (map on_wire fs) (Returns (visible fin)).
Proof. intros fs tail chunks fin S I E W NS. apply stream_iff; [exact NS|exact W|]. rewrite E. apply reads_batch; assumption. Qed.

Theorem early_error : forall chunks last fin, no_stall (chunks ++ [last]) -> wf (concat (chunks ++ [last])) ->
  exists fs e, reads_all (mkReader (chunks ++ [last]) fin true) fs e
    /\ (forall fin0 fs0 e0, reads fin0 (concat (chunks ++ [last])) fs0 e0 -> prefix fs fs0)
    /\ (forall fin1 fs1 e1, reads fin1 (concat chunks) fs1 e1 -> prefix fs1 fs).
Proof.
  intros chunks last fin NS W. destruct (loop_reads (length (concat (chunks ++ [last]))) new_scanner (mkReader (chunks ++ [last]) fin true) new_ok) as (fs & e & A & _ & B & C).
  - exact NS.
  - rewrite pend_new. exact W.
  - rewrite pend_new. apply le_n.
  - exists fs, e. split; [eexists; exact A|]. rewrite pend_new in B. rewrite seen_new in C. cbn [r_with r_chunks] in *. rewrite removelast_last in C.
    split; [exact B|]. intros fin1 fs1 e1 K. apply (C (concat chunks) [] fin1 fs1 e1); [rewrite app_nil_r; reflexivity|exact K].
Qed.
