(** Lemmas for C77. *)
From Coq Require Import List NArith ZArith Lia Bool Arith ZifyBool ZifyNat ZifyN.
From Verif Require Import Base MsgpackModel RecycleModel RecycleSpec RecycleProofs AliasModel AliasSpec.
Open Scope nat_scope.
Import ListNotations.

Lemma skipn_skipn : forall (l : bytes) a b, skipn b (skipn a l) = skipn (a + b) l.
Proof. intros l a. revert l. induction a as [|a IH]; intros l b; [reflexivity|]. destruct l as [|x l]; [rewrite !skipn_nil; reflexivity|]. cbn [skipn plus]. apply IH. Qed.
Lemma slice_slice : forall (l : bytes) a n b k, b + k <= n -> slice (slice l a n) b k = slice l (a + b) k.
Proof.
  intros l a n b k H. unfold slice. rewrite skipn_firstn_comm, firstn_firstn, skipn_skipn. replace (Nat.min k (n - b)) with k by lia. reflexivity.
Qed.
Lemma slice_length : forall (l : bytes) a n, length (slice l a n) <= n.
Proof. intros. unfold slice. apply firstn_le_length. Qed.

Lemma reads_sub : forall s w off n, off + n <= v_len w -> reads s (sub w off n) = slice (reads s w) off n.
Proof.
  intros s w off n H. unfold reads, sub; cbn [v_array v_off v_len]. destruct (nth_error (r_arrays s) (v_array w)) as [x|].
  - symmetry. apply slice_slice. exact H.
  - unfold slice. rewrite skipn_nil, firstn_nil. reflexivity.
Qed.
Lemma reads_le : forall s w, length (reads s w) <= v_len w.
Proof. intros s w. unfold reads. destruct (nth_error (r_arrays s) (v_array w)); [apply slice_length|cbn; lia]. Qed.

(** GetBytes. *)
Lemma get_bytes_at : forall n d b d', get_bytes n d = Ret (b, d') ->
  d_buf d' = d_buf d /\ (N.to_nat (d_off d') <= length (d_buf d)) /\ length b <= N.to_nat (d_off d') /\ b = slice (d_buf d) (N.to_nat (d_off d') - length b) (length b).
Proof.
  intros n d b d' E. unfold get_bytes, check in E. destruct (d_err d); [discriminate E|]. destruct (u32 (len (d_buf d)) <? u32 (d_off d + n))%N; [discriminate E|].
  set (hi := u32 (d_off d + n)) in *. set (lo := d_off d) in *. destruct ((lo <=? hi)%N && (hi <=? len (d_buf d))%N) eqn:C; [|discriminate E].
  apply andb_true_iff in C. destruct C as [C1 C2]. apply N.leb_le in C1, C2. unfold step in E. assert (Hb : b = firstn (N.to_nat (hi - lo)) (skipn (N.to_nat lo) (d_buf d))) by congruence.
  assert (Hd : d' = mkDR (d_buf d) hi (d_err d)) by (unfold hi, lo; congruence). subst d'. cbn [d_buf d_off].
  unfold len in C2. assert (L : length b = N.to_nat (hi - lo)) by (rewrite Hb, firstn_length, skipn_length; lia).
  split; [reflexivity|]. split; [lia|]. split; [lia|]. rewrite L. unfold slice. replace (N.to_nat hi - N.to_nat (hi - lo)) with (N.to_nat lo) by lia. exact Hb.
Qed.

Definition keeps {A} (m : M A) : Prop := forall d a d', m d = Ret (a, d') -> d_buf d' = d_buf d.
Lemma keeps_get : forall w, keeps (get w).
Proof.
  intros w d a d' E. unfold get, check in E. destruct (d_err d); [discriminate E|]. destruct (u32 (len (d_buf d)) <? u32 (d_off d + N.of_nat w))%N; [discriminate E|].
  destruct (slice_from (d_buf d) (d_off d)); try discriminate E. destruct (get_be w a0); try discriminate E. unfold step in E. assert (H : mkDR (d_buf d) (u32 (d_off d + N.of_nat w)) (d_err d) = d') by congruence. subst d'. reflexivity.
Qed.
Lemma keeps_ret : forall {A} (a : A), keeps (rret a).
Proof. intros A a d x d' E. unfold rret in E. congruence. Qed.
Lemma keeps_fail : forall {A} e, keeps (@rfail A e).
Proof. intros A a d x d' E. discriminate E. Qed.
Lemma keeps_bind : forall {A B} (m : M A) (k : A -> M B), keeps m -> (forall a, keeps (k a)) -> keeps (rbind m k).
Proof. intros A B m k H1 H2 d b d' E. unfold rbind in E. destruct (m d) as [[a d1]| |] eqn:E1; try discriminate E. rewrite (H2 _ _ _ _ E). exact (H1 _ _ _ E1). Qed.
Lemma keeps_if : forall {A} (c : bool) (m1 m2 : M A), keeps m1 -> keeps m2 -> keeps (if c then m1 else m2).
Proof. intros A c m1 m2 H1 H2. destruct c; assumption. Qed.
Lemma keeps_string : keeps readStringLength.
Proof. unfold readStringLength. apply keeps_bind; [apply keeps_get|]. intro p. repeat first [apply keeps_if|apply keeps_get|apply keeps_ret|apply keeps_fail]. Qed.
Lemma keeps_bin : keeps readBinLength.
Proof. unfold readBinLength. apply keeps_bind; [apply keeps_get|]. intro p. repeat first [apply keeps_if|apply keeps_get|apply keeps_ret|apply keeps_fail]. Qed.

Lemma read_at : forall read d b d', returns_bytes read -> read d = Ret (b, d') ->
  (N.to_nat (d_off d') <= length (d_buf d)) /\ length b <= N.to_nat (d_off d') /\ b = slice (d_buf d) (N.to_nat (d_off d') - length b) (length b).
Proof.
  intros read d b d' H E.
  assert (X : exists n d1, d_buf d1 = d_buf d /\ get_bytes n d1 = Ret (b, d')).
  { destruct H as [-> | ->]; [unfold ReadString in E|unfold ReadByteArray in E]; unfold rbind in E.
    - destruct (readStringLength d) as [[n d1]| |] eqn:E1; try discriminate E. exists n, d1. split; [exact (keeps_string _ _ _ E1)|exact E].
    - destruct (readBinLength d) as [[n d1]| |] eqn:E1; try discriminate E. exists n, d1. split; [exact (keeps_bin _ _ _ E1)|exact E]. }
  destruct X as (n & d1 & X1 & X2). destruct (get_bytes_at _ _ _ _ X2) as (_ & Y). rewrite X1 in Y. exact Y.
Qed.

(** The slice of a decoded value: a part of the slice decoded from. *)
Lemma at_slice_inv : forall read s w off b d v off', returns_bytes read -> read (mkDR (reads s w) off false) = Ret (b, d) -> at_slice read s w off = Some (v, off') ->
  exists o, v = sub w o (length b) /\ o + length b <= length (reads s w) /\ b = slice (reads s w) o (length b) /\ off' = d_off d /\ o + length b = N.to_nat off'.
Proof.
  intros read s w off b d v off' H E A. unfold at_slice in A. rewrite E in A. injection A as <- <-. destruct (read_at _ _ _ _ H E) as (L1 & L2 & L3). cbn [d_buf] in L1, L3.
  exists (N.to_nat (d_off d) - length b). split; [reflexivity|]. split; [lia|]. split; [exact L3|]. split; [reflexivity|lia].
Qed.

Lemma write_buf_views : forall s b d e, r_views (write_buf s b d e) = r_views s.
Proof. intros. unfold write_buf. destruct (nth_error (r_bufs s) b) as [[[a|] n]|]; try reflexivity. destruct (nth_error (r_arrays s) a) as [x|]; [|reflexivity]. destruct (length d <=? length (a_bytes x)); reflexivity. Qed.
Lemma views_step : forall s a s' w, rstep s a = Some s' -> In w (r_views s) -> In w (r_views s').
Proof.
  intros s a s' w E H. destruct a; cbn [rstep] in E.
  - destruct (get_buf s pick) as [[s1 b]|] eqn:G; [|discriminate E]. injection E as <-. cbn [r_views]. rewrite write_buf_views. unfold get_buf in G.
    destruct pick as [i|]; [destruct (nth_error (r_pool s) i); [|discriminate G]|]; injection G as <- <-; exact H.
  - destruct (r_cur s); [discriminate E|]. destruct (r_chan s); [discriminate E|]. injection E as <-. exact H.
  - destruct (r_cur s) as [b|]; [|discriminate E]. destruct (nth_error (r_bufs s) b) as [[[x|] m]|]; try discriminate E. destruct (off + n <=? m); [|discriminate E]. injection E as <-. cbn [r_views]. apply in_or_app. left. exact H.
  - destruct (r_cur s) as [b|]; [|discriminate E]. injection E as <-. exact H.
  - destruct (nth_error (r_pool s) i); [|discriminate E]. injection E as <-. exact H.
  - destruct (nth_error (r_views s) v) as [u|]; [|discriminate E]. destruct (off + length d <=? v_len u); [|discriminate E]. destruct (nth_error (r_arrays s) (v_array u)); [|discriminate E]. injection E as <-. exact H.
Qed.
Lemma views_run : forall l s s' w, rruns s l = Some s' -> In w (r_views s) -> In w (r_views s').
Proof.
  induction l as [|a l IH]; intros s s' w E H; cbn [rruns] in E; [congruence|]. destruct (rstep s a) as [s1|] eqn:D; [|discriminate E]. exact (IH _ _ _ E (views_step _ _ _ _ D H)).
Qed.
Lemma rruns_app : forall l l' s, rruns s (l ++ l') = match rruns s l with Some s1 => rruns s1 l' | None => None end.
Proof. induction l as [|a l IH]; intros l' s; cbn [app rruns]; [reflexivity|]. destruct (rstep s a); [apply IH|reflexivity]. Qed.
Lemma views_later : forall l l' s s' w, recycled l s -> recycled (l ++ l') s' -> In w (r_views s) -> In w (r_views s').
Proof. intros l l' s s' w R R' H. unfold recycled in *. rewrite rruns_app, R in R'. exact (views_run _ _ _ _ R' H). Qed.
