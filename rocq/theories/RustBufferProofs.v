(** Proofs about frames in buffers between Go and Rust. *)
From Coq Require Import List NArith ZArith Lia Bool ZifyBool ZifyNat ZifyN.
From Verif Require Import Base BaseLemmas FramesModel FramesSpec FramesProofs BatchModel BatchSpec BatchProofs CustomSpec RustFramesModel RustFramesSpec RustFramesProofs RustCallModel RustBufferModel RustBufferSpec.
Import ListNotations.
Open Scope N_scope.

Lemma laid_cons : forall b bs, laid (b :: bs) = bytes3 (len b) ++ b ++ laid bs.
Proof. intros. unfold laid. cbn [map concat]. rewrite <- app_assoc. reflexivity. Qed.
Lemma laid_app : forall a b, laid (a ++ b) = laid a ++ laid b.
Proof. intros. unfold laid. rewrite map_app, concat_app. reflexivity. Qed.
Lemma laid_wires : forall fs, laid (map wire fs) = batch fs.
Proof. intro fs. unfold laid, batch, framed. rewrite map_map. reflexivity. Qed.

(** ** Reading *)
Lemma read_loop_inv : forall fuel pos until rest bs, wf rest -> read_loop fuel pos until rest = Some bs ->
  exists r, rest = laid bs ++ r /\ Forall (fun b => len b < 2^24) bs /\ until <= pos + len (laid bs) /\ (forall a b l, bs = a ++ b :: l -> pos + len (laid a) < until).
Proof.
  induction fuel as [|fuel IH]; intros pos until rest bs W H; cbn [read_loop] in H; [discriminate|]. destruct (N.ltb_spec pos until) as [L|L].
  - destruct (read_frame rest) as [[f rest']|] eqn:R; [|discriminate]. destruct (read_loop fuel _ until rest') as [fs|] eqn:E; [|discriminate]. assert (Q : bs = f :: fs) by congruence. subst bs.
    destruct (read_frame_inv rest f rest' W R) as [-> Lf]. apply wf_app in W. destruct W as [_ W]. apply wf_app in W. destruct W as [_ W].
    destruct (IH _ _ _ _ W E) as (r & -> & F & U & C). exists r. rewrite laid_cons. split; [rewrite <- !app_assoc; reflexivity|]. split; [constructor; assumption|].
    split; [rewrite !len_app, bytes3_len; lia|]. intros a b l Q. destruct a as [|a0 a]; [unfold laid, len; cbn [map concat length]; lia|]. cbn [app] in Q. assert (a0 = f) by congruence. assert (Q' : fs = a ++ b :: l) by congruence. subst a0.
    specialize (C _ _ _ Q'). rewrite laid_cons, !len_app, bytes3_len. lia.
  - assert (Q : bs = []) by congruence. subst bs. exists rest. split; [reflexivity|]. split; [constructor|]. split; [lia|]. intros a b l Q. destruct a; discriminate.
Qed.
Lemma read_loop_ok : forall bs fuel pos until r, Forall (fun b => len b < 2^24) bs -> (length (laid bs ++ r) < fuel)%nat -> until <= pos + len (laid bs) -> (forall a b l, bs = a ++ b :: l -> pos + len (laid a) < until) ->
  read_loop fuel pos until (laid bs ++ r) = Some bs.
Proof.
  induction bs as [|b bs IH]; intros fuel pos until r F L U C; destruct fuel as [|fuel]; try (exfalso; lia); cbn [read_loop].
  - destruct (N.ltb_spec pos until) as [Q|Q]; [|reflexivity]. change (len (laid [])) with 0 in U. lia.
  - inversion_clear F. specialize (C [] b bs eq_refl) as C0. change (len (laid [])) with 0 in C0. destruct (N.ltb_spec pos until) as [Q|Q]; [|lia].
    rewrite laid_cons in *. rewrite <- !app_assoc. rewrite read_frame_app by assumption. rewrite !len_app, bytes3_len in U. rewrite !app_length in L. change (length (bytes3 (len b))) with 3%nat in L.
    rewrite IH; [reflexivity|assumption|rewrite app_length; lia|lia|]. intros a x l E. specialize (C (b :: a) x l). rewrite laid_cons, !len_app, bytes3_len in C. assert (C' : pos + (3 + (len b + len (laid a))) < until) by (apply C; rewrite E; reflexivity). lia.
Qed.
Theorem read_frames_iff : forall buf until bs, wf buf ->
  (read_frames buf until = Some bs <-> exists r, buf = laid bs ++ r /\ Forall (fun b => len b < 2^24) bs /\ until <= len (laid bs) /\ (forall a b l, bs = a ++ b :: l -> len (laid a) < until)).
Proof.
  intros buf until bs W. split.
  - intro H. destruct (read_loop_inv _ _ _ _ _ W H) as (r & A & B & C & D). exists r. auto.
  - intros (r & -> & F & U & C). apply read_loop_ok; [exact F|lia|lia|exact C].
Qed.
Lemma small_wires : forall fs, Forall sendable fs -> Forall (fun b => len b < 2^24) (map wire fs).
Proof. intros fs F. induction F as [|f fs S _ IH]; constructor; [apply S|exact IH]. Qed.
Lemma read_batch : forall fs r, Forall sendable fs -> read_frames (batch fs ++ r) (len (batch fs)) = Some (map wire fs).
Proof.
  intros fs r F. rewrite <- laid_wires. apply read_loop_ok; [apply small_wires; exact F|lia|lia|].
  intros a b l E. rewrite E, laid_app, laid_cons, !len_app, bytes3_len. lia.
Qed.

Lemma decode_wire : forall f, sendable f -> wf (wire f) -> readable_text f -> exists g, rframe_decode (wire f) = Ret g /\ means f g.
Proof.
  intros f S W R. assert (A := parse_agree (wire f) W). rewrite (sendable_parse f S) in A. cbn [agree] in A. destruct A as [[_ (g & E & Sy & C)]|[NR _]]; [exists g; split; [exact E|split; assumption]|].
  exfalso. apply NR. destruct f; exact R.
Qed.
Lemma decode_all_wires : forall size fs, Forall (goes_through size) fs -> exists gs, decode_all (map wire fs) = Ret (map Handled gs) /\ Forall2 means fs gs.
Proof.
  intros size fs F. induction F as [|f fs (S & _ & W & R) F (gs & E & M)]; [exists []; split; [reflexivity|constructor]|].
  destruct (decode_wire f S W R) as (g & D & Mg). exists (g :: gs). cbn [map decode_all]. rewrite D, E. split; [reflexivity|constructor; assumption].
Qed.
Lemma guest_reads : forall size fs r, Forall (goes_through size) fs -> exists gs, send_frame (batch fs ++ r) (len (batch fs)) = Ret (map Handled gs) /\ Forall2 means fs gs.
Proof.
  intros size fs r F. unfold send_frame. rewrite read_batch by (eapply Forall_impl; [|exact F]; intros f X; apply X). exact (decode_all_wires size fs F).
Qed.
Theorem go_to_rust : forall buf es, len buf < 2^24 -> no_close es -> Forall (goes_through (len buf)) (arrived es) ->
  exists s groups pending, sendLoop (loop_init buf) es = Ret s /\ arrived es = concat groups ++ pending /\ (waits es -> pending = []) /\
    Forall2 (fun c g => exists rs, send_frame (fst c) (snd c) = Ret (map Handled rs) /\ Forall2 means g rs) (l_calls s) groups.
Proof.
  intros buf es SZ NC F. assert (Ff : Forall (fits (len buf)) (arrived es)) by (eapply Forall_impl; [|exact F]; intros f (A & B & _); split; assumption).
  destruct (loop_inv (len buf) buf eq_refl SZ es NC Ff) as (s & groups & pending & E & I & A & W & In1). exists s, groups, pending. split; [exact E|]. split; [exact A|]. split.
  - intro Wt. apply W. destruct (l_inner s); [|reflexivity]. destruct In1 as [In1 _]. destruct (In1 eq_refl) as (es' & f & ->). exfalso. exact (Wt es' f eq_refl).
  - destruct I as (_ & _ & _ & _ & C & _). assert (Fg : Forall (goes_through (len buf)) (concat groups)) by (rewrite A in F; apply Forall_app in F; apply F). clear - C Fg.
    induction C as [|c g cs gs (_ & (j & J) & P & _) C IH]; [constructor|]. cbn [concat] in Fg. apply Forall_app in Fg. destruct Fg as [F1 F2]. constructor; [|exact (IH F2)]. rewrite J, P. exact (guest_reads _ _ _ F1).
Qed.

(** ** Writing *)
Lemma skipn_plus : forall A (l : list A) n m, skipn n (skipn m l) = skipn (m + n) l.
Proof. induction l as [|x l IH]; intros n m; [rewrite !skipn_nil; reflexivity|]. destruct m; [reflexivity|]. cbn [skipn Nat.add]. apply IH. Qed.
Lemma two_writes : forall v b, let v' := write_at (write_at v 0 (bytes3 (len b))) (0 + 3) b in
  v_bytes v' = bytes3 (len b) ++ b ++ skipn (N.to_nat (3 + len b)) (v_bytes v) /\
  (3 + len b <= v_cap v -> len (v_bytes v) <= v_cap v -> v_cap v' = v_cap v) /\ (v_cap v < 3 + len b -> v_cap v < v_cap v') /\ (len (v_bytes v) <= v_cap v -> len (v_bytes v') <= v_cap v').
Proof.
  intros v b v'. assert (B : v_bytes v' = bytes3 (len b) ++ b ++ skipn (N.to_nat (3 + len b)) (v_bytes v)).
  { unfold v', write_at at 1. cbn [v_bytes]. unfold write_at. cbn [v_bytes]. change (N.to_nat 0) with 0%nat. cbn [firstn app]. change (N.to_nat (0 + 3)) with 3%nat. change (0 + len (bytes3 (len b))) with 3. change (N.to_nat 3) with 3%nat.
    rewrite firstn_len_app by reflexivity. f_equal. f_equal. replace (N.to_nat (0 + 3 + len b)) with (3 + length b)%nat by (unfold len; lia). change (3 + length b)%nat with (length (bytes3 (len b)) + length b)%nat at 1.
    rewrite skipn_app, skipn_all2 by lia. cbn [app]. replace (length (bytes3 (len b)) + length b - length (bytes3 (len b)))%nat with (length b) by lia. rewrite skipn_plus. f_equal. unfold len. lia. }
  assert (L : len (v_bytes v') = N.max (3 + len b) (len (v_bytes v))) by (rewrite B, !len_app, bytes3_len, len_skipn; lia).
  set (w := write_at v 0 (bytes3 (len b))) in *. assert (Lw : len (v_bytes w) = N.max 3 (len (v_bytes v))).
  { unfold w, write_at. cbn [v_bytes]. change (N.to_nat 0) with 0%nat. cbn [firstn app]. change (len (bytes3 (len b) ++ skipn (N.to_nat (0 + 3)) (v_bytes v)) = N.max 3 (len (v_bytes v))). rewrite len_app, bytes3_len, len_skipn. lia. }
  assert (Cw : v_cap w = if len (v_bytes w) <=? v_cap v then v_cap v else N.max (2 * v_cap v) (len (v_bytes w))) by reflexivity.
  assert (Cv : v_cap v' = if len (v_bytes v') <=? v_cap w then v_cap w else N.max (2 * v_cap w) (len (v_bytes v'))) by reflexivity.
  clearbody w. split; [exact B|]. clear B. rewrite Cv, Cw, L, Lw. repeat split; intros.
  - destruct (N.leb_spec (N.max 3 (len (v_bytes v))) (v_cap v)); [|lia]. destruct (N.leb_spec (N.max (3 + len b) (len (v_bytes v))) (v_cap v)); lia.
  - destruct (N.leb_spec (N.max 3 (len (v_bytes v))) (v_cap v)); [|destruct (N.leb_spec (N.max (3 + len b) (len (v_bytes v))) (N.max (2 * v_cap v) (N.max 3 (len (v_bytes v))))); lia]. destruct (N.leb_spec (N.max (3 + len b) (len (v_bytes v))) (v_cap v)); lia.
  - destruct (N.leb_spec (N.max 3 (len (v_bytes v))) (v_cap v)); [|destruct (N.leb_spec (N.max (3 + len b) (len (v_bytes v))) (N.max (2 * v_cap v) (N.max 3 (len (v_bytes v))))); lia]. destruct (N.leb_spec (N.max (3 + len b) (len (v_bytes v))) (v_cap v)); lia.
Qed.

Lemma u24_bytes3 : forall n, n < 2^32 -> to_u24_bytes (u32 n) = bytes3 n.
Proof. intros n L. unfold u32. rewrite N.mod_small by exact L. unfold to_u24_bytes. apply skip_be4. Qed.

(** The three things that can happen to one frame. *)
Theorem send_one : forall st b, room_ok st -> len b < 2^32 ->
  let '(st', size, lost) := send_host_frame st [b] in room_ok st' /\
  ( (3 + len b <= v_cap (h_vec st) /\ size = 3 + len b /\ lost = [] /\ h_moved st' = h_moved st /\ v_cap (h_vec st') = v_cap (h_vec st) /\ exists r, v_bytes (h_vec st') = bytes3 (len b) ++ b ++ r)
  \/ (v_cap (h_vec st) < 3 + len b /\ len b <= v_cap (h_vec st) /\ size = 3 + len b /\ lost = [] /\ h_moved st' = true)
  \/ (v_cap (h_vec st) < len b /\ size = 0 /\ lost = [b] /\ st' = st) ).
Proof.
  intros st b R Lb. unfold send_host_frame. cbn [rev app fill]. rewrite u24_bytes3 by exact Lb.
  assert (U : u32 (len b) = len b) by (unfold u32; apply N.mod_small; exact Lb). rewrite U.
  destruct (N.ltb_spec (v_cap (h_vec st)) (0 + len b)) as [Q|Q].
  - cbn [rev app]. rewrite N.eqb_refl. cbn [negb]. rewrite orb_false_r. destruct st as [v m]. cbn [h_vec h_moved] in *. split; [exact R|]. right. right. split; [lia|]. auto.
  - destruct (two_writes (h_vec st) b) as (B & C1 & C2 & C3). cbn [fst snd]. set (v' := write_at _ (0 + 3) b) in *. split; [exact (C3 R)|]. cbn [h_vec h_moved]. destruct (N.leb_spec (3 + len b) (v_cap (h_vec st))) as [G|G].
    + left. rewrite (C1 G R), N.eqb_refl. cbn [negb]. rewrite orb_false_r. split; [exact G|]. split; [lia|]. split; [reflexivity|]. split; [reflexivity|]. split; [reflexivity|]. eexists. exact B.
    + right. left. specialize (C2 ltac:(lia)). assert (X : v_cap v' =? v_cap (h_vec st) = false) by lia. rewrite X. cbn [negb]. rewrite orb_true_r. split; [lia|]. split; [lia|]. split; [lia|]. auto.
Qed.

Lemma sees_framed : forall st elsewhere b r, h_moved st = false -> v_bytes (h_vec st) = bytes3 (len b) ++ b ++ r -> host_sees st elsewhere (3 + len b) = bytes3 (len b) ++ b.
Proof.
  intros st e b r M B. unfold host_sees. rewrite M, B. rewrite !len_app, bytes3_len. destruct (N.leb_spec (3 + len b) (3 + (len b + len r))); [|lia].
  rewrite app_assoc. apply firstn_len_app. rewrite app_length. change (length (bytes3 (len b))) with 3%nat. unfold len. lia.
Qed.
Theorem rust_to_go : forall l st, room_ok st -> h_moved st = false -> Forall (fun x => crosses (v_cap (h_vec st)) (fst x)) l ->
  exists st', writer st l = Ret (st', map (fun x => framed (go_view (fst x))) l) /\ room_ok st' /\ h_moved st' = false /\ v_cap (h_vec st') = v_cap (h_vec st).
Proof.
  induction l as [|[g e] l IH]; intros st R M F; [exists st; auto|]. inversion_clear F as [|? ? X F']. destruct X as (A & B & C). cbn [fst] in A, B, C. cbn [writer]. rewrite (rframe_encode_wire g A). cbn [bind].
  set (b := wire (go_view g)) in *. assert (S := send_one st b R). destruct (send_host_frame st [b]) as [[st' size] lost]. destruct S as [R' [S|[S|S]]]; [change (2^32) with 4294967296; change (2^24) with 16777216 in B; lia| |lia|lia].
  destruct S as (_ & -> & _ & Mv & Cp & r & Bs). rewrite M in Mv. destruct (IH st' R' Mv) as (st'' & E & R'' & M'' & C''); [rewrite Cp; exact F'|]. exists st''. rewrite E. cbn [bind fst snd map]. rewrite (sees_framed st' e b r Mv Bs). split; [reflexivity|]. split; [exact R''|]. split; [exact M''|]. rewrite C''. exact Cp.
Qed.
Lemma moved_stays : forall st l, h_moved st = true -> let '(st', _, _) := send_host_frame st l in h_moved st' = true.
Proof. intros st l M. unfold send_host_frame. destruct (fill _ _ _ _) as [[v t] r]. cbn [h_moved]. rewrite M. reflexivity. Qed.
Theorem moved_reads_elsewhere : forall l st st' views, h_moved st = true -> writer st l = Ret (st', views) ->
  h_moved st' = true /\ Forall2 (fun x view => exists n, view = firstn n (snd x)) l views.
Proof.
  induction l as [|[g e] l IH]; intros st st' views M E; cbn [writer] in E.
  - assert (Q : st = st' /\ [] = views) by (split; congruence). destruct Q as [<- <-]. split; [exact M|constructor].
  - destruct (rframe_encode g) as [b| |]; cbn [bind] in E; try discriminate. assert (Mv := moved_stays st [b] M). destruct (send_host_frame st [b]) as [[st1 size] lost].
    destruct (writer st1 l) as [[st2 vs]| |] eqn:W; cbn [bind fst snd] in E; try discriminate. assert (Q : st' = st2 /\ views = host_sees st1 e size :: vs) by (split; congruence). destruct Q as [-> ->].
    destruct (IH _ _ _ Mv W) as [M2 F]. split; [exact M2|]. constructor; [|exact F]. cbn [snd]. unfold host_sees. rewrite Mv. destruct (size <=? len e); [exists (N.to_nat size); reflexivity|exists 0%nat; reflexivity].
Qed.

(** ** The Rust host *)
Theorem host_writes : forall mem start b mem' n, len b < 2^24 -> host_write mem start b = Ret (mem', n) ->
  n = 3 + len b /\ len mem' = len mem /\ firstn (N.to_nat start) mem' = firstn (N.to_nat start) mem /\ skipn (N.to_nat start) mem' = (bytes3 (len b) ++ b) ++ skipn (N.to_nat (start + n)) mem.
Proof.
  intros mem start b mem' n Lb H. unfold host_write in H. rewrite u24_bytes3 in H by (change (2^32) with 4294967296; change (2^24) with 16777216 in Lb; lia).
  destruct (_ <=? taken_size); [|discriminate]. destruct (N.leb_spec (start + len (bytes3 (len b) ++ b)) (len mem)) as [L|L]; [|discriminate].
  set (buf := bytes3 (len b) ++ b) in *. assert (Lf : len buf = 3 + len b) by (unfold buf; rewrite len_app, bytes3_len; reflexivity).
  assert (Q : mem' = firstn (N.to_nat start) mem ++ buf ++ skipn (N.to_nat (start + len buf)) mem /\ n = len buf) by (split; congruence). destruct Q as [-> ->]. rewrite Lf.
  assert (Ls : length (firstn (N.to_nat start) mem) = N.to_nat start) by (rewrite firstn_length; unfold len in *; lia).
  split; [reflexivity|]. split; [rewrite !len_app, len_firstn, len_skipn, Lf; lia|]. split; [apply firstn_len_app; symmetry; exact Ls|]. rewrite skipn_app, skipn_all2 by lia. rewrite Ls, Nat.sub_diag. reflexivity.
Qed.
Theorem host_write_iff : forall mem start b, len b < 2^24 -> start + 3 + len b <= len mem -> (host_write mem start b = Panic <-> 4092 < 3 + len b).
Proof.
  intros mem start b Lb L. unfold host_write. rewrite u24_bytes3 by (change (2^32) with 4294967296; change (2^24) with 16777216 in Lb; lia). rewrite len_app, bytes3_len. unfold taken_size.
  destruct (N.leb_spec (3 + len b) 4092); [|split; [lia|reflexivity]]. destruct (N.leb_spec (start + (3 + len b)) (len mem)); [|lia]. split; [discriminate|lia].
Qed.
