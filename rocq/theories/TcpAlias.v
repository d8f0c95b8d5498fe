From Coq Require Import List NArith ZArith Lia Bool ZifyBool ZifyNat ZifyN.
From Verif Require Import Base BaseLemmas FramesModel FramesSpec FramesProofs BatchSpec BatchProofs TcpModel TcpSpec TcpProofs TcpScan TcpReads.
Import ListNotations.
Open Scope N_scope.

Definition keeps (s s' : scanner) : Prop := s_old s' = s_old s /\ len (s_buf s') = len (s_buf s) /\ s_end s <= s_end s'
  /\ firstn (N.to_nat (s_end s)) (s_buf s') = firstn (N.to_nat (s_end s)) (s_buf s).

Lemma keeps_refl : forall s, keeps s s.
Proof. intros s. unfold keeps. repeat split; lia. Qed.
Lemma firstn_shorter : forall {A} (a b : nat) (l m : list A), (a <= b)%nat -> firstn b l = firstn b m -> firstn a l = firstn a m.
Proof. intros A a b l m L H. apply (f_equal (firstn a)) in H. rewrite !firstn_firstn in H. rewrite Nat.min_l in H by lia. exact H. Qed.
Lemma keeps_trans : forall a b c, keeps a b -> keeps b c -> keeps a c.
Proof.
  intros a b c (A1 & A2 & A3 & A4) (B1 & B2 & B3 & B4). split; [congruence|]. split; [congruence|]. split; [lia|].
  rewrite <- A4. eapply firstn_shorter; [|exact B4]. lia.
Qed.

Lemma conn_read_fits : forall r space d e r', conn_read r space = (d, e, r') -> len d <= space /\ concat (r_chunks r) = d ++ concat (r_chunks r').
Proof.
  intros [chunks fin w] space d e r' H. unfold conn_read in H; cbn [r_chunks r_final r_with] in H. destruct chunks as [|c rest].
  - injection H as <- <- <-. split; [rewrite len_nil; lia|reflexivity].
  - destruct (len c <=? space) eqn:F; injection H as <- <- <-; cbn [r_chunks concat]; (split; [rewrite ?len_firstn; lia|]); [reflexivity|].
    rewrite app_assoc, firstn_skipn. reflexivity.
Qed.

Lemma read_loop_any : forall left s r s' r', read_loop left s r = (s', r') -> s_start s <= s_end s -> s_end s <= len (s_buf s) ->
  keeps s s' /\ s_start s' = s_start s /\ s_end s' <= len (s_buf s') /\ s_end s' + len (concat (r_chunks r')) = s_end s + len (concat (r_chunks r)).
Proof.
  induction left; intros s r s' r' H H1 H2; cbn [read_loop] in H; destruct (conn_read r (len (s_buf s) - s_end s)) as [[d e] r1] eqn:C;
    destruct (conn_read_fits _ _ _ _ _ C) as [C1 C2]; destruct (store_ok s d H1) as (S1 & S2 & S3); try lia;
    assert (X : keeps s (store s d) /\ s_start (store s d) = s_start s /\ s_end (store s d) <= len (s_buf (store s d)) /\ s_end (store s d) + len (concat (r_chunks r1)) = s_end s + len (concat (r_chunks r)))
      by (rewrite C2, len_app; unfold keeps; rewrite S2; cbn [store s_old s_start s_end]; cbn [store s_buf] in S3; repeat split; try lia; exact S3);
    (destruct e as [e|]; [injection H as <- <-; exact X|]); (destruct (0 <? len d); [injection H as <- <-; exact X|]).
  - injection H as <- <-. exact X.
  - destruct X as (X1 & X2 & X3 & X4). apply IHleft in H; [|rewrite X2; destruct X1 as (_ & _ & X5 & _); lia|exact X3].
    destruct H as (Y1 & Y2 & Y3 & Y4). split; [eapply keeps_trans; eassumption|]. split; [congruence|]. split; [exact Y3|]. lia.
Qed.

(** A frame handed out lies in the present buffer, before its start. *)
Lemma doSplit_token : forall data adv l, doSplit data false = Ret (adv, Some l) -> adv = l /\ 3 < l <= len data.
Proof.
  intros data adv l H. unfold doSplit in H. destruct (len data <? lengthFieldSize); [discriminate|]. destruct (ReadUint24ToInt data) as [n|e|]; [|discriminate|discriminate].
  destruct (n <? 1) eqn:Z; [discriminate|]. destruct (n + lengthFieldSize <=? len data) eqn:F; [|discriminate].
  change lengthFieldSize with 3 in *. injection H as <- <-. lia.
Qed.
Lemma doSplit_none : forall data eof adv, doSplit data eof = Ret (adv, None) -> adv = 0.
Proof.
  intros data eof adv H. unfold doSplit in H. destruct eof; [congruence|]. destruct (len data <? lengthFieldSize); [congruence|]. destruct (ReadUint24ToInt data) as [n|e|]; [|discriminate|discriminate].
  destruct (n <? 1) eqn:Z; [discriminate|]. destruct (n + lengthFieldSize <=? len data) eqn:F; [discriminate|congruence].
Qed.

Definition half : N := minBuffSize / 2.
Definition small (s : scanner) (r : reader) : Prop := s_old s = [] /\ len (s_buf s) = minBuffSize /\ s_end s + len (concat (r_chunks r)) <= half.

Lemma Scan_any : forall fuel s r v s' r', ok s -> Scan fuel s r = Some (Some v, s', r') ->
  (ok s' /\ v_buf v = length (s_old s') /\ 3 < v_len v /\ v_off v + v_len v = s_start s') /\ (small s r -> small s' r' /\ keeps s s').
Proof.
  induction fuel as [|fuel IH]; intros s r v s' r' O H; [discriminate|]. pose proof O as (O1 & O2 & O3 & O4).
  cbn [Scan] in H. rewrite O4, orb_false_r in H.
  assert (MORE : match grow (shift s) with
    | None => Some (None, setErr (shift s) TooLong, r)
    | Some s => let '(s, r) := read_loop maxConsecutiveEmptyReads s r in Scan fuel s r
    end = Some (Some v, s', r') -> (ok s' /\ v_buf v = length (s_old s') /\ 3 < v_len v /\ v_off v + v_len v = s_start s') /\ (small s r -> small s' r' /\ keeps s s')).
  { intros M. destruct (shift_ok s O) as (P1 & P2 & P3 & P4 & P5). destruct (grow (shift s)) as [g|] eqn:G; [|discriminate].
    assert (OG : ok g /\ (small s r -> g = s)).
    { pose proof P1 as (Q1 & Q2 & Q3 & Q4). split.
      - destruct (grow_ok (shift s) P1) as (g' & G1 & G2 & _); [|congruence]. rewrite P3. intros E. split; [exact (P5 E)|].
        rewrite data_len by assumption. rewrite (P5 E), E.
        unfold grow in G. rewrite P3, E, N.eqb_refl in G. destruct (maxBuffSize <=? len (s_buf s)) eqn:MX; [discriminate|lia].
      - intros (K1 & K2 & K3).
        assert (SH : shift s = s).
        { unfold shift. rewrite K2. replace (s_end s =? minBuffSize) with false by (symmetry; apply N.eqb_neq; unfold half, minBuffSize in *; change (8192 / 2) with 4096 in *; lia).
          replace (minBuffSize / 2 <? s_start s) with false by (symmetry; apply N.ltb_ge; fold half; lia). rewrite andb_false_r. reflexivity. }
        rewrite SH in G. unfold grow in G. rewrite K2 in G. replace (s_end s =? minBuffSize) with false in G by (symmetry; apply N.eqb_neq; unfold half, minBuffSize in *; change (8192 / 2) with 4096 in *; lia). congruence. }
    destruct OG as [(g1 & g2 & g3 & g4) SG].
    destruct (read_loop maxConsecutiveEmptyReads g r) as [s1 r1] eqn:RL.
    destruct (read_loop_any _ _ _ _ _ RL g1 g2) as (K1 & K2 & K3 & K4).
    destruct (s_err s1) as [e|] eqn:E1.
    - destruct fuel as [|fuel']; [discriminate|]. cbn [Scan] in M. rewrite E1, orb_true_r in M. cbn [doSplit s_err] in M. discriminate.
    - assert (OK1 : ok s1) by (destruct K1 as (k1 & k2 & k3 & k4); unfold ok; rewrite K2; rewrite k2 in *; repeat split; try assumption; lia).
      destruct (IH s1 r1 v s' r' OK1 M) as [I1 I2]. split; [exact I1|]. intros SM. specialize (SG SM). subst g.
      destruct I2 as [I2 I3].
      + destruct SM as (m1 & m2 & m3). pose proof K1 as (k1 & k2 & k3 & k4). unfold small. split; [congruence|]. split; [congruence|]. lia.
      + split; [exact I2|]. eapply keeps_trans; eassumption. }
  destruct (s_start s <? s_end s).
  - destruct (doSplit (data_of s) false) as [[adv [l|]]|e|] eqn:D; [| |discriminate|discriminate].
    + injection H as <- <- <-. destruct (doSplit_token _ _ _ D) as [-> D2]. rewrite data_len in D2 by assumption.
      split; [|intros SM; split; [exact SM|exact (keeps_refl s)]]. split; [unfold ok; cbn [s_start s_end s_buf s_err]; repeat split; lia|].
      cbn [v_buf v_off v_len s_old s_start]. repeat split; lia.
    + apply doSplit_none in D. subst adv. cbn [s_err] in H. rewrite (scanner_eta s O4) in H. exact (MORE H).
  - exact (MORE H).
Qed.

Lemma view_len : forall s v, ok s -> v_buf v = length (s_old s) -> v_off v + v_len v <= s_start s -> len (view_bytes (memory s) v) = v_len v.
Proof.
  intros s v (O1 & O2 & O3 & O4) B L. unfold view_bytes. rewrite B, nth_memory, len_firstn, len_skipn. lia.
Qed.

Lemma tcp_read_any : forall fuel s r l s' r', ok s -> tcp_read fuel s r = Some (Ret l, s', r') ->
  ok s' /\ observe (memory s') l = lf_frame l
  /\ (forall v, (v = lf_metadata l \/ v = lf_data l) -> v_buf v = length (s_old s') /\ v_off v + v_len v <= s_start s')
  /\ (small s r -> small s' r' /\ keeps s s').
Proof.
  intros fuel s r l s' r' O H. unfold tcp_read, decoder_read in H. destruct (Scan fuel s r) as [[[[v|] s1] r1]|] eqn:E; [| |discriminate].
  - cbn [v_len v_off v_buf] in H. change lengthFieldSize with 3 in H. change FrameHeaderLen with 6 in H.
    destruct (v_len v - 3 <? 6) eqn:Z; [discriminate|].
    set (raw := mkView (v_buf v) (v_off v + 3) (v_len v - 3)) in *.
    destruct (frame_parse (view_bytes (memory s1) raw)) as [[f|]|e|] eqn:P; [| |destruct e|]; try discriminate.
    assert (E1 : to_live raw f = l) by congruence. assert (E2 : s1 = s') by congruence. assert (E3 : r1 = r') by congruence. subst s1 r1 l. clear H.
    destruct (Scan_any _ _ _ _ _ _ O E) as [(A1 & A2 & A3 & A4) A5].
    assert (VL : len (view_bytes (memory s') raw) = v_len raw) by (apply view_len; [exact A1|exact A2|unfold raw; cbn [v_off v_len]; lia]).
    split; [exact A1|]. split; [exact (observe_live _ _ _ P VL)|]. split; [|exact A5].
    destruct (parse_tail _ _ P) as (pre & T). apply (f_equal len) in T. rewrite VL, !len_app in T.
    intros w [-> | ->]; unfold to_live; cbn [lf_metadata lf_data v_buf v_off v_len]; (split; [exact A2|]); unfold raw in *; cbn [v_off v_len] in *; lia.
  - discriminate.
Qed.

Lemma steps_ok : forall r t, tcp_steps (tcp_init r) t -> ok (t_scan t).
Proof.
  intros r t H. remember (tcp_init r) as t0 eqn:E. induction H as [t|t t1 t2 H1 IH H2]; [subst; exact new_ok|].
  specialize (IH E). destruct H2; [|exact IH]. cbn [t_scan] in *. eapply tcp_read_any; eassumption.
Qed.

Theorem at_once_proof : forall r s c q seen fuel l s' c', tcp_steps (tcp_init r) (mkTcp s c q seen) -> tcp_read fuel s c = Some (Ret l, s', c') -> observe (memory s') l = lf_frame l.
Proof. intros r s c q seen fuel l s' c' H R. apply steps_ok in H. cbn [t_scan] in H. apply (tcp_read_any _ _ _ _ _ _ H) in R. apply R. Qed.

(** A live frame in the part of the buffer already read. *)
Definition settled (s : scanner) (l : live) : Prop := observe (memory s) l = lf_frame l
  /\ forall v, (v = lf_metadata l \/ v = lf_data l) -> v_buf v = O /\ v_off v + v_len v <= s_end s.

Lemma view_keeps : forall s s' v, s_old s = [] -> keeps s s' -> v_buf v = O -> v_off v + v_len v <= s_end s -> view_bytes (memory s') v = view_bytes (memory s) v.
Proof.
  intros s s' v O (K1 & K2 & K3 & K4) B L. unfold view_bytes, memory. rewrite K1, O, B. cbn [nth app].
  rewrite <- !skipn_firstn_comm || idtac.
  assert (X : forall b : bytes, firstn (N.to_nat (v_len v)) (skipn (N.to_nat (v_off v)) b) = skipn (N.to_nat (v_off v)) (firstn (N.to_nat (v_off v) + N.to_nat (v_len v)) b))
    by (intros b; rewrite firstn_skipn_comm; reflexivity).
  rewrite !X. f_equal. eapply firstn_shorter; [|exact K4]. lia.
Qed.

Lemma settled_keeps : forall s s' l, s_old s = [] -> keeps s s' -> settled s l -> settled s' l.
Proof.
  intros s s' l O K (H1 & H2). pose proof K as (_ & _ & K3 & _). split.
  - rewrite <- H1. unfold observe. rewrite (view_keeps s s' (lf_metadata l)), (view_keeps s s' (lf_data l)); auto; apply H2; auto.
  - intros v V. destruct (H2 v V) as [A B]. split; [exact A|lia].
Qed.

Lemma small_inv : forall r t, len (concat (r_chunks r)) <= half -> tcp_steps (tcp_init r) t ->
  ok (t_scan t) /\ small (t_scan t) (t_conn t) /\ Forall (settled (t_scan t)) (t_queue t) /\ Forall (fun p => fst p = snd p) (t_seen t).
Proof.
  intros r t L H. remember (tcp_init r) as t0 eqn:E. induction H as [t|t t1 t2 H1 IH H2].
  - subst. cbn [tcp_init t_scan t_conn t_queue t_seen]. split; [exact new_ok|]. split; [|split; constructor].
    unfold small, new_scanner; cbn [s_old s_buf s_end]. rewrite len_repeat, N2Nat.id. repeat split. lia.
  - specialize (IH E). destruct H2 as [s c q seen fuel l s' c' R|s c l q seen]; cbn [t_scan t_conn t_queue t_seen] in *; destruct IH as (I1 & I2 & I3 & I4).
    + destruct (tcp_read_any _ _ _ _ _ _ I1 R) as (A1 & A2 & A3 & A4). destruct (A4 I2) as [A5 A6]. split; [exact A1|]. split; [exact A5|]. split; [|exact I4].
      apply Forall_app. split.
      * eapply Forall_impl; [|exact I3]. intros x. apply settled_keeps; [apply I2|exact A6].
      * constructor; [|constructor]. split; [exact A2|]. intros v V. destruct (A3 v V) as [B1 B2]. destruct A5 as (B3 & _). rewrite B3 in B1. destruct A1 as (C1 & _). split; [exact B1|lia].
    + split; [exact I1|]. split; [exact I2|]. inversion I3 as [|? ? J1 J2]; subst. split; [exact J2|]. apply Forall_app. split; [exact I4|]. constructor; [|constructor].
      cbn [fst snd]. symmetry. apply J1.
Qed.

Theorem small_proof : forall r t f g, len (concat (r_chunks r)) <= 4096 -> tcp_steps (tcp_init r) t -> In (f, g) (t_seen t) -> f = g.
Proof.
  intros r t f g L H I. destruct (small_inv r t L H) as (_ & _ & _ & S). rewrite Forall_forall in S. exact (S _ I).
Qed.
