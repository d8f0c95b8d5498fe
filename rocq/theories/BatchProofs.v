(** Proofs about the crossing of frames between host and guest. *)
From Coq Require Import List NArith ZArith Lia Bool ZifyBool ZifyNat ZifyN.
From Verif Require Import Base BaseLemmas FramesModel FramesSpec FramesProofs BatchModel BatchSpec.
Import ListNotations.
Open Scope N_scope.
Ltac Zify.zify_post_hook ::= Z.div_mod_to_equations.

Lemma bytes3_len : forall v, len (bytes3 v) = 3.
Proof. reflexivity. Qed.
Lemma framed_len : forall f, len (framed f) = 3 + len (wire f).
Proof. intro f. unfold framed. rewrite len_app. reflexivity. Qed.
Lemma batch_app : forall a b, batch (a ++ b) = batch a ++ batch b.
Proof. intros. unfold batch. rewrite map_app, concat_app. reflexivity. Qed.
Lemma batch_cons : forall f fs, batch (f :: fs) = framed f ++ batch fs.
Proof. reflexivity. Qed.
Lemma batch_one : forall f, batch [f] = framed f.
Proof. intro f. unfold batch. cbn [map concat]. apply app_nil_r. Qed.

Lemma metadata_small : forall f, len (frame_metadata f) <= len (wire f).
Proof.
  intros [sid|sid n|sid code data|p|r]; cbn [frame_metadata wire]; try (rewrite len_nil; lia).
  - rewrite !len_app, wire_metadata_len. destruct (pf_metadata p); cbn [nonempty]; [rewrite len_nil|]; lia.
  - rewrite !len_app, wire_metadata_len. destruct (rf_metadata r); cbn [nonempty]; [rewrite len_nil|]; lia.
Qed.
Lemma sendable_parse : forall f, sendable f -> frame_parse (wire f) = Ret (Some (on_wire f)).
Proof. intros f [R L]. apply frame_parse_wire; [exact R|]. assert (M := metadata_small f). lia. Qed.

Lemma overlay_prefix : forall a b n, length a = n -> overlay (repeat 0 n) (a ++ b) = a.
Proof.
  intros a b n <-. unfold overlay. rewrite repeat_length, firstn_len_app by reflexivity. rewrite skipn_all2; [apply app_nil_r|]. rewrite repeat_length, app_length. lia.
Qed.

(** ** Receiving *)
Lemma guest_loop_ok : forall fs fuel cur rest, Forall sendable fs -> (length (batch fs ++ rest) < fuel)%nat -> cur + len (batch fs) < 2^32 ->
  guest_loop fuel cur (cur + len (batch fs)) (batch fs ++ rest) = Ret (map (fun f => Some (on_wire f)) fs).
Proof.
  induction fs as [|f fs IH]; intros fuel cur rest F L B; (destruct fuel as [|fuel]; [lia|]).
  - cbn [guest_loop]. change (batch []) with (@nil N). rewrite len_nil, N.add_0_r. assert (E : cur <? cur = false) by lia. rewrite E. reflexivity.
  - inversion F as [|? ? F1 F2]; subst. assert (Lw : len (wire f) < 2^24) by (destruct F1; assumption). change (2^24) with 16777216 in Lw. change (2^32) with 4294967296 in *.
    rewrite batch_cons in *. rewrite <- app_assoc in *. rewrite len_app, framed_len in *. rewrite app_length in L. assert (Lf : length (framed f) = (3 + length (wire f))%nat) by (unfold framed; rewrite app_length; reflexivity). rewrite Lf in L.
    cbn [guest_loop]. assert (E : cur <? cur + (3 + len (wire f) + len (batch fs)) = true) by lia. rewrite E. assert (X : framed f ++ batch fs ++ rest = bytes3 (len (wire f)) ++ wire f ++ batch fs ++ rest) by (unfold framed; rewrite <- app_assoc; reflexivity). rewrite X.
    rewrite slice_from_app by reflexivity. cbn [bind]. rewrite firstn_len_app by reflexivity.
    change (unbe (0 :: bytes3 (len (wire f)))) with (unbe (bytes3 (len (wire f)))). rewrite unbe_bytes3 by exact Lw.
    rewrite (app_assoc (bytes3 _)). rewrite slice_from_app by (rewrite len_app; reflexivity). cbn [bind].
    rewrite overlay_prefix by (unfold len; lia). rewrite sendable_parse by exact F1. cbn [bind].
    assert (Uc : u32 (cur + u32 (3 + len (wire f))) = cur + (3 + len (wire f))) by (unfold u32; change (2^32) with 4294967296; rewrite !N.mod_small; [reflexivity|lia|rewrite N.mod_small; lia]). rewrite Uc.
    replace (cur + (3 + len (wire f) + len (batch fs))) with (cur + (3 + len (wire f)) + len (batch fs)) by lia. rewrite IH; [reflexivity|exact F2|lia|lia].
Qed.
Theorem guest_recovers : forall fs rest, Forall sendable fs -> len (batch fs) < 2^32 -> GuestSend (batch fs ++ rest) (len (batch fs)) = Ret (map (fun f => Some (on_wire f)) fs).
Proof. intros fs rest F L. unfold GuestSend. rewrite <- (N.add_0_l (len (batch fs))). apply guest_loop_ok; [exact F|lia|exact L]. Qed.

Lemma host_loop_ok : forall fs fuel, Forall sendable fs -> (length (batch fs) < fuel)%nat -> host_loop fuel (batch fs) = Ret (suffixes fs).
Proof.
  induction fs as [|f fs IH]; intros fuel F L; (destruct fuel as [|fuel]; [lia|]); [reflexivity|].
  inversion F as [|? ? F1 F2]; subst. assert (Lw : len (wire f) < 2^24) by (destruct F1; assumption). cbn [host_loop suffixes]. rewrite batch_cons in *.
  rewrite app_length in L. assert (Lf : length (framed f) = (3 + length (wire f))%nat) by (unfold framed; rewrite app_length; reflexivity). rewrite Lf in L.
  assert (E : 0 <? len (framed f ++ batch fs) = true) by (rewrite len_app, framed_len; lia). rewrite E. unfold framed. rewrite <- app_assoc.
  rewrite slice_to_app by reflexivity. cbn [bind]. rewrite slice_from_app by reflexivity. cbn [bind].
  change (unbe (0 :: bytes3 (len (wire f)))) with (unbe (bytes3 (len (wire f)))). rewrite unbe_bytes3 by exact Lw. rewrite slice_from_app by reflexivity. cbn [bind]. rewrite IH; [reflexivity|exact F2|lia].
Qed.
Theorem host_gets : forall fs, Forall sendable fs -> hostSend (batch fs) = Ret (suffixes fs).
Proof. intros fs F. apply host_loop_ok; [exact F|lia]. Qed.

(** ** Sending from the guest *)
Theorem guest_sends : forall hb beyond f, sendable f -> 3 + len (wire f) <= len hb ->
  exists hb', doSendFrame hb beyond f = Ret (hb', [wire f]) /\ len hb' = len hb /\ frame_parse (wire f) = Ret (Some (on_wire f)).
Proof.
  intros hb beyond f S L. assert (R := S). destruct R as [R Lw]. unfold doSendFrame. rewrite skip_be4, (frame_size_wire f R).
  assert (P := put_at_step no_error [] hb (bytes3 (len (wire f)))). cbn [app] in P. rewrite len_nil, bytes3_len in P. rewrite P by lia. cbn [bind]. change (length (bytes3 (len (wire f)))) with 3%nat.
  rewrite slice_from_app by reflexivity. cbn [bind]. set (t := skipn 3 hb). assert (Lt : len t = len hb - 3) by (unfold t; rewrite len_skipn; lia).
  rewrite <- (firstn_skipn (length (wire f)) t). rewrite frame_encode_wire; [|exact R|rewrite len_firstn, (frame_size_wire f R); unfold len in *; lia]. cbn [bind]. rewrite firstn_len_app by reflexivity.
  assert (U : u32 (len (wire f) + 3) = 3 + len (wire f)) by (unfold u32; change (2^24) with 16777216 in Lw; change (2^32) with 4294967296; rewrite N.mod_small; lia). rewrite U.
  assert (LT : len (skipn (length (wire f)) t) = len hb - 3 - len (wire f)) by (rewrite len_skipn; unfold len in *; lia).
  assert (E : 3 + len (wire f) <=? len ((bytes3 (len (wire f)) ++ wire f ++ skipn (length (wire f)) t) ++ beyond) = true) by (rewrite !len_app, bytes3_len; lia). rewrite E.
  replace ((bytes3 (len (wire f)) ++ wire f ++ skipn (length (wire f)) t) ++ beyond) with (batch [f] ++ skipn (length (wire f)) t ++ beyond) by (rewrite batch_one; unfold framed; rewrite <- !app_assoc; reflexivity).
  rewrite firstn_len_app by (rewrite batch_one; unfold framed; rewrite app_length; change (length (bytes3 (len (wire f)))) with 3%nat; unfold len; lia).
  rewrite host_gets by (constructor; [exact S|constructor]). cbn [bind suffixes]. change (batch []) with (@nil N). rewrite app_nil_r. eexists. split; [reflexivity|]. split; [rewrite !len_app, bytes3_len; lia|]. apply sendable_parse. exact S.
Qed.

(** ** The send loop *)
Definition fits (size : N) (f : frame) : Prop := sendable f /\ 3 + len (wire f) <= size.
Definition call_of (size : N) (c : bytes * N) (g : list frame) : Prop := Forall (fits size) g /\ (exists junk, fst c = batch g ++ junk) /\ snd c = len (batch g) /\ len (fst c) = size.
Definition inv (size : N) (s : loop_state) (groups : list (list frame)) (pending : list frame) : Prop :=
  Forall (fits size) pending /\ l_pos s = len (batch pending) /\ (exists junk, l_buf s = batch pending ++ junk) /\ len (l_buf s) = size /\ Forall2 (call_of size) (l_calls s) groups /\ l_done s = false.

Lemma pending_le : forall size s groups pending, inv size s groups pending -> l_pos s <= size.
Proof. intros size s groups pending (_ & P & (j & J) & L & _). rewrite P, <- L, J, len_app. lia. Qed.

Lemma put_frame : forall a junk f, frame_in_range f -> 3 + len (wire f) <= len junk ->
  exists junk', (do b <- copy_at (a ++ junk) (len a) (skipn 1 (be 4 (frame_size f))) ; do rest <- slice_from b (len a + 3) ; do rest' <- frame_encode f rest ; Ret (firstn (N.to_nat (len a + 3)) b ++ rest')) = Ret (a ++ framed f ++ junk') /\ len junk = len (framed f) + len junk'.
Proof.
  intros a junk f R L. rewrite skip_be4, (frame_size_wire f R). rewrite copy_at_step by (rewrite bytes3_len; lia). cbn [bind]. change (length (bytes3 (len (wire f)))) with 3%nat. set (t := skipn 3 junk).
  assert (Lt : len t = len junk - 3) by (unfold t; rewrite len_skipn; lia). rewrite slice_from_app by (rewrite len_app, bytes3_len; reflexivity). cbn [bind].
  rewrite <- (firstn_skipn (length (wire f)) t). rewrite frame_encode_wire; [|exact R|rewrite len_firstn, (frame_size_wire f R); unfold len in *; lia]. cbn [bind].
  rewrite firstn_len_app by (rewrite app_length; change (length (bytes3 (len (wire f)))) with 3%nat; unfold len; lia).
  exists (skipn (length (wire f)) t). split; [unfold framed; rewrite <- !app_assoc; reflexivity|]. rewrite framed_len, len_skipn. unfold len in *. lia.
Qed.

Lemma inv_flush : forall size s groups pending, inv size s groups pending -> inv size (flush s) (groups ++ [pending]) [].
Proof.
  intros size s groups pending (F & P & (j & J) & L & C & D). unfold flush. repeat split; cbn [l_buf l_pos l_calls l_done]; auto.
  - exists (l_buf s). reflexivity.
  - apply Forall2_app; [exact C|]. constructor; [|constructor]. split; [exact F|]. split; [exists j; exact J|]. split; [exact P|exact L].
Qed.

Lemma write_ok : forall size s groups pending f, size < 2^24 -> inv size s groups pending -> fits size f -> exists s' groups' pending', write s f = Ret s' /\ inv size s' groups' pending' /\ concat groups' ++ pending' = concat groups ++ pending ++ [f] /\ l_inner s' = l_inner s.
Proof.
  intros size s groups pending f SZ I [S Fi]. assert (R := S). destruct R as [R Lw]. assert (PL := pending_le _ _ _ _ I). change (2^24) with 16777216 in *. unfold write.
  assert (U : u32 (u32 (l_pos s + 3) + frame_size f) = l_pos s + 3 + len (wire f)) by (rewrite (frame_size_wire f R); unfold u32; change (2^32) with 4294967296; rewrite !N.mod_small; [reflexivity|lia|rewrite N.mod_small; lia]). rewrite U.
  assert (Step : forall s1 g1 p1, inv size s1 g1 p1 -> l_pos s1 + 3 + len (wire f) <= size -> exists s', (do b <- copy_at (l_buf s1) (l_pos s1) (skipn 1 (be 4 (frame_size f))) ; do rest <- slice_from b (l_pos s1 + 3) ; do rest' <- frame_encode f rest ;
    Ret (mkLoop (firstn (N.to_nat (l_pos s1 + 3)) b ++ rest') (u32 (l_pos s1 + u32 (3 + frame_size f))) (l_inner s1) (l_done s1) (l_calls s1))) = Ret s' /\ inv size s' g1 (p1 ++ [f]) /\ l_inner s' = l_inner s1).
  { intros s1 g1 p1 (F1 & P1 & (j1 & J1) & L1 & C1 & D1) Q. rewrite J1, len_app in L1. destruct (put_frame (batch p1) j1 f R) as (j' & E & Lj); [lia|].
    rewrite J1, P1. destruct (copy_at (batch p1 ++ j1) (len (batch p1)) (skipn 1 (be 4 (frame_size f)))) as [b|x|] eqn:E1; cbn [bind] in E |- *; [|discriminate|discriminate].
    destruct (slice_from b (len (batch p1) + 3)) as [rest|x|] eqn:E2; cbn [bind] in E |- *; [|discriminate|discriminate]. destruct (frame_encode f rest) as [rest'|x|] eqn:E3; cbn [bind] in E |- *; [|discriminate|discriminate]. assert (E0 : forall x y : bytes, @Ret no_error bytes x = Ret y -> x = y) by congruence. apply E0 in E. rewrite E.
    eexists. split; [reflexivity|]. split; [|reflexivity]. split; [apply Forall_app; split; [exact F1|constructor; [split; assumption|constructor]]|]. cbn [l_pos l_buf l_calls l_done].
    rewrite framed_len in Lj. rewrite batch_app, batch_one, (len_app (batch p1) (framed f)), framed_len. split; [|split; [exists j'; rewrite <- app_assoc; reflexivity|split; [rewrite !len_app, framed_len; lia|split; [exact C1|exact D1]]]].
    rewrite (frame_size_wire f R). unfold u32. change (2^32) with 4294967296. rewrite !N.mod_small; [lia|lia|rewrite N.mod_small; lia]. }
  destruct I as (F & P & J & L & C & D). rewrite L. destruct (size <=? l_pos s + 3 + len (wire f)) eqn:Q.
  - destruct (Step (flush s) (groups ++ [pending]) []) as (s' & E & I' & In'); [apply inv_flush; repeat split; assumption|cbn [flush l_pos]; lia|]. exists s', (groups ++ [pending]), [f]. split; [exact E|split; [exact I'|split; [|exact In']]]. rewrite concat_app. cbn [concat]. rewrite app_nil_r, <- app_assoc. reflexivity.
  - destruct (Step s groups pending) as (s' & E & I' & In'); [repeat split; assumption|lia|]. exists s', groups, (pending ++ [f]). split; [exact E|split; [exact I'|split; [reflexivity|exact In']]].
Qed.

Lemma inv_eta : forall size s g p b, inv size s g p -> inv size (mkLoop (l_buf s) (l_pos s) b false (l_calls s)) g p.
Proof. intros size s g p b (A & B & C & D & E & F). exact (conj A (conj B (conj C (conj D (conj E eq_refl))))). Qed.

Lemma waits_nil_inner : forall es f, ~ waits (es ++ [Arrive f]).
Proof. intros es f W. exact (W es f eq_refl). Qed.

Lemma sendLoop_app : forall a s b, sendLoop s (a ++ b) = bind (sendLoop s a) (fun s1 => sendLoop s1 b).
Proof. induction a as [|e a IH]; intros s b; [reflexivity|]. cbn [app sendLoop]. destruct (loop_step s e); cbn [bind]; try reflexivity. apply IH. Qed.
Lemma arrived_app : forall a b, arrived (a ++ b) = arrived a ++ arrived b.
Proof. induction a as [|[f| |] a IH]; intro b; cbn [app arrived]; rewrite ?IH; reflexivity. Qed.

(** The state after any events without a close. *)
Lemma loop_inv : forall size buf, len buf = size -> size < 2^24 -> forall es, no_close es -> Forall (fits size) (arrived es) ->
  exists s groups pending, sendLoop (loop_init buf) es = Ret s /\ inv size s groups pending /\ arrived es = concat groups ++ pending /\ (l_inner s = false -> pending = []) /\
    (l_inner s = true <-> exists es' f, es = es' ++ [Arrive f]).
Proof.
  intros size buf L SZ es. induction es as [|e es IH] using rev_ind; intros NC F.
  - exists (loop_init buf), [], []. split; [reflexivity|]. split; [split; [constructor|split; [reflexivity|split; [exists buf; reflexivity|split; [exact L|split; [constructor|reflexivity]]]]]|]. split; [reflexivity|]. split; [reflexivity|]. split; [discriminate|]. intros (es' & f & X). destruct es'; discriminate.
  - rewrite arrived_app in F. apply Forall_app in F as [F1 F2]. destruct IH as (s & groups & pending & E & I & A & W & In1); [intro X; apply NC; apply in_app_iff; auto|exact F1|].
    rewrite sendLoop_app, E. cbn [bind sendLoop]. assert (D : l_done s = false) by apply I. unfold loop_step. rewrite D. rewrite arrived_app, A. destruct e as [f| |].
    + cbn [arrived] in F2. inversion F2; subst. destruct (write_ok _ s groups pending f SZ I) as (s' & g' & p' & E' & I' & C' & In'); [assumption|]. rewrite E'. cbn [bind]. eexists _, g', p'. split; [reflexivity|]. split; [apply inv_eta; exact I'|]. cbn [arrived l_inner]. split; [rewrite <- app_assoc; symmetry; exact C'|]. split; [discriminate|]. split; [eauto|reflexivity].
    + assert (No : forall es' f, es ++ [Idle] <> es' ++ [Arrive f]) by (intros es' f X; apply app_inj_tail in X as [_ X]; discriminate).
      destruct (l_inner s) eqn:Ins; cbn [bind].
      * destruct (0 <? l_pos s) eqn:P; cbn [bind].
        -- eexists _, (groups ++ [pending]), []. split; [reflexivity|]. split; [apply inv_eta, inv_flush; exact I|]. cbn [arrived l_inner]. split; [rewrite concat_app; cbn [concat]; rewrite !app_nil_r; reflexivity|]. split; [reflexivity|]. split; [discriminate|]. intros (es' & f & X). exfalso. exact (No _ _ X).
        -- assert (Pn : pending = []). { destruct I as (_ & P1 & _). destruct pending as [|f p]; [reflexivity|]. rewrite batch_cons, len_app, framed_len in P1. lia. }
           eexists _, groups, pending. split; [reflexivity|]. split; [apply inv_eta; exact I|]. cbn [arrived l_inner]. rewrite app_nil_r. split; [reflexivity|]. split; [intros _; exact Pn|]. split; [discriminate|]. intros (es' & f & X). exfalso. exact (No _ _ X).
      * exists s, groups, pending. cbn [arrived]. rewrite app_nil_r. split; [reflexivity|split; [exact I|split; [reflexivity|split; [intros _; exact (W eq_refl)|]]]]. rewrite Ins. split; [discriminate|]. intros (es' & f & X). exfalso. exact (No _ _ X).
    + exfalso. apply NC. apply in_app_iff. right. left. reflexivity.
Qed.

Lemma inv_calls : forall size s groups pending, size < 2^24 -> inv size s groups pending ->
  map (fun c => GuestSend (fst c) (snd c)) (l_calls s) = map (fun g => Ret (map (fun f => Some (on_wire f)) g)) groups /\ Forall (fun c => snd c <= len (fst c) /\ len (fst c) = size) (l_calls s).
Proof.
  intros size s groups pending SZ (_ & _ & _ & _ & C & _). change (2^24) with 16777216 in SZ. induction C as [|c g cs gs (Fg & (j & J) & P & L) C IH]; [split; [reflexivity|constructor]|]. destruct IH as [IH1 IH2]. cbn [map]. rewrite IH1. rewrite J, len_app in L. rewrite J, P. split.
  - f_equal. apply guest_recovers; [|change (2^32) with 4294967296; lia]. eapply Forall_impl; [|exact Fg]. intros f X. apply X.
  - constructor; [|exact IH2]. rewrite P, J, len_app. split; lia.
Qed.

(** Everything queued is delivered, in order. *)
Theorem loop_delivers : forall buf es, len buf < 2^24 -> no_close es -> Forall (fun f => sendable f /\ 3 + len (wire f) <= len buf) (arrived es) ->
  exists s groups pending, sendLoop (loop_init buf) es = Ret s /\
    map (fun c => GuestSend (fst c) (snd c)) (l_calls s) = map (fun g => Ret (map (fun f => Some (on_wire f)) g)) groups /\ Forall (fun c => snd c <= len (fst c) /\ len (fst c) = len buf) (l_calls s) /\
    arrived es = concat groups ++ pending /\ (waits es -> pending = []).
Proof.
  intros buf es SZ NC F. destruct (loop_inv (len buf) buf eq_refl SZ es NC F) as (s & groups & pending & E & I & A & W & In1). exists s, groups, pending. split; [exact E|]. destruct (inv_calls _ _ _ _ SZ I) as [C1 C2]. split; [exact C1|split; [exact C2|split; [exact A|]]].
  intro Wt. apply W. destruct (l_inner s); [|reflexivity]. destruct In1 as [In1 _]. destruct (In1 eq_refl) as (es' & f & ->). exfalso. exact (Wt es' f eq_refl).
Qed.

(** Closing is safe exactly when the loop is waiting. *)
Theorem close_proof : forall buf es, len buf < 2^24 -> no_close es -> Forall (fun f => sendable f /\ 3 + len (wire f) <= len buf) (arrived es) ->
  (sendLoop (loop_init buf) (es ++ [Closed]) = Panic <-> exists es' f, es = es' ++ [Arrive f]).
Proof.
  intros buf es SZ NC F. destruct (loop_inv (len buf) buf eq_refl SZ es NC F) as (s & groups & pending & E & I & A & W & In1). rewrite sendLoop_app, E. cbn [bind sendLoop]. unfold loop_step. assert (D : l_done s = false) by apply I. rewrite D, <- In1. destruct (l_inner s); cbn [bind]; split; try reflexivity; discriminate.
Qed.

(** ** Frames that do not fit *)
Lemma put_at_len : forall E b off src b', @put_at E b off src = Ret b' -> len b' = len b.
Proof.
  intros E b off src b' H. unfold put_at, copy_at in H. destruct (off + len src <=? len b) eqn:Q; [|discriminate]. destruct (off <=? len b) eqn:Q2; [|discriminate]. injection H as <-. rewrite len_app. unfold len at 2. rewrite overlay_length. fold (len (skipn (N.to_nat off) b)). rewrite len_firstn, len_skipn. lia.
Qed.
Lemma copy_at_len : forall E b off src b', @copy_at E b off src = Ret b' -> len b' = len b.
Proof.
  intros E b off src b' H. unfold copy_at in H. destruct (off <=? len b) eqn:Q2; [|discriminate]. injection H as <-. rewrite len_app. unfold len at 2. rewrite overlay_length. fold (len (skipn (N.to_nat off) b)). rewrite len_firstn, len_skipn. lia.
Qed.
Lemma body_len : forall md data off b b', encode_body md data off b = Ret b' -> len b' = len b.
Proof.
  intros md data off b b' H. unfold encode_body in H. destruct (0 <? u32 (len md)); [|apply copy_at_len in H; exact H]. apply bind_ret in H as (b1 & H1 & H). apply bind_ret in H as (b2 & H2 & H). apply put_at_len in H1. apply copy_at_len in H2. apply copy_at_len in H. congruence.
Qed.
Lemma header_len : forall E b sid ty fg b', @ResetFrameHeader E b sid ty fg = Ret b' -> len b' = len b.
Proof. intros E b sid ty fg b' H. unfold ResetFrameHeader in H. apply bind_ret in H as (b1 & H1 & H). rewrite (put_at_len _ _ _ _ _ H). exact (put_at_len _ _ _ _ _ H1). Qed.
Lemma encode_len : forall f b b', frame_encode f b = Ret b' -> len b' = len b.
Proof.
  intros [sid|sid n|sid code data|p|r] b b' H; cbn [frame_encode] in H.
  - unfold cancel_encode in H. exact (header_len _ _ _ _ _ _ H).
  - unfold requestn_encode in H. apply bind_ret in H as (b1 & H1 & H). assert (X1 := header_len _ _ _ _ _ _ H1). apply put_at_len in H. congruence.
  - unfold error_encode in H. apply bind_ret in H as (b1 & H1 & H). apply bind_ret in H as (b2 & H2 & H). assert (X1 := header_len _ _ _ _ _ _ H1). apply put_at_len in H2. apply copy_at_len in H. congruence.
  - unfold payload_encode in H. apply bind_ret in H as (b1 & H1 & H). assert (X1 := header_len _ _ _ _ _ _ H1). apply body_len in H. congruence.
  - unfold request_encode in H. apply bind_ret in H as (b1 & H1 & H). assert (X1 := header_len _ _ _ _ _ _ H1). destruct (has_initial_n (rf_type r)); [apply bind_ret in H as (b2 & H2 & H); apply put_at_len in H2|]; apply body_len in H; congruence.
Qed.

Theorem too_big_proof : forall buf es f, 3 <= len buf < 2^24 -> no_close es -> Forall (fun f => sendable f /\ 3 + len (wire f) <= len buf) (arrived es) -> sendable f -> len buf < 3 + len (wire f) ->
  sendLoop (loop_init buf) (es ++ [Arrive f; Idle]) = Panic \/
  exists s cs b, sendLoop (loop_init buf) (es ++ [Arrive f; Idle]) = Ret s /\ l_calls s = cs ++ [(b, 3 + len (wire f))] /\ len b < 3 + len (wire f) /\ GuestSend b (3 + len (wire f)) = Panic.
Proof.
  intros buf es f [Sm SZ] NC F [R Lw] Big. destruct (loop_inv (len buf) buf eq_refl SZ es NC F) as (s & groups & pending & E & I & _ & _ & _). rewrite sendLoop_app, E. cbn [bind sendLoop]. assert (PL := pending_le _ _ _ _ I). destruct I as (_ & _ & _ & L & _ & D). unfold loop_step at 1 3. rewrite D. unfold write. change (2^24) with 16777216 in *.
  assert (U : u32 (u32 (l_pos s + 3) + frame_size f) = l_pos s + 3 + len (wire f)) by (rewrite (frame_size_wire f R); unfold u32; change (2^32) with 4294967296; rewrite !N.mod_small; [reflexivity|lia|rewrite N.mod_small; lia]). rewrite U.
  assert (Q : len (l_buf s) <=? l_pos s + 3 + len (wire f) = true) by lia. rewrite Q. unfold flush. cbn [l_buf l_pos l_inner l_done l_calls]. rewrite skip_be4, (frame_size_wire f R).
  assert (P := copy_at_step no_error [] (l_buf s) (bytes3 (len (wire f)))). cbn [app] in P. rewrite len_nil, bytes3_len in P. rewrite P by lia. cbn [bind]. change (length (bytes3 (len (wire f)))) with 3%nat. rewrite slice_from_app by reflexivity. cbn [bind].
  destruct (frame_encode f (skipn 3 (l_buf s))) as [rest'|x|] eqn:En; [|destruct x|left; reflexivity]. right. cbn [bind]. change (N.to_nat (0 + 3)) with 3%nat. rewrite firstn_len_app by reflexivity.
  assert (U2 : u32 (0 + u32 (3 + len (wire f))) = 3 + len (wire f)) by (unfold u32; change (2^32) with 4294967296; rewrite N.add_0_l, !N.mod_small; [reflexivity|lia|rewrite N.mod_small; lia]). rewrite U2. unfold loop_step. cbn [l_done l_inner l_pos l_buf l_calls]. assert (Q2 : 0 <? 3 + len (wire f) = true) by lia. rewrite Q2. cbn [bind]. unfold flush. cbn [l_done l_inner l_pos l_buf l_calls].
  apply encode_len in En. rewrite len_skipn in En. assert (LB : len (bytes3 (len (wire f)) ++ rest') = len buf) by (rewrite len_app, bytes3_len; lia).
  eexists _, _, _. split; [reflexivity|]. split; [reflexivity|]. split; [rewrite LB; exact Big|]. unfold GuestSend. cbn [guest_loop]. assert (Q3 : 0 <? 3 + len (wire f) = true) by lia. rewrite Q3. rewrite slice_from_app by reflexivity. cbn [bind]. rewrite firstn_len_app by reflexivity.
  change (unbe (0 :: bytes3 (len (wire f)))) with (unbe (bytes3 (len (wire f)))). rewrite unbe_bytes3 by exact Lw. rewrite slice_from_panic by (rewrite LB; exact Big). reflexivity.
Qed.
