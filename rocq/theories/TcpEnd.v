From Coq Require Import List NArith ZArith Lia Bool ZifyBool ZifyNat ZifyN.
From Verif Require Import Base BaseLemmas FramesModel FramesSpec FramesProofs BatchSpec BatchProofs TcpModel TcpSpec TcpProofs TcpScan TcpReads TcpWrites.
Import ListNotations.
Open Scope N_scope.

Lemma strict_incomplete : forall body rest n, len body < 2^24 -> N.of_nat n < len (delimited body) -> incomplete (firstn n (delimited body ++ rest)).
Proof.
  intros body rest n L S b2 r2 L2 E.
  assert (X : delimited body ++ rest = delimited b2 ++ (r2 ++ skipn n (delimited body ++ rest))) by (rewrite app_assoc, <- E, firstn_skipn; reflexivity).
  apply delimited_inj in X; [|exact L|exact L2]. destruct X as [<- _].
  apply (f_equal len) in E. rewrite len_firstn, !len_app in E. lia.
Qed.
Lemma nil_incomplete : incomplete [].
Proof. intros b r L E. apply (f_equal len) in E. rewrite len_app, delimited_len, len_nil in E. lia. Qed.

Lemma cut_batch : forall limit fs, Forall sendable fs -> exists pre post tail, fs = pre ++ post /\ cut limit (batch fs) = batch pre ++ tail /\ incomplete tail
  /\ within limit (len (batch pre)) /\ match post with [] => True | f :: _ => ~ within limit (len (batch (pre ++ [f]))) end.
Proof.
  intros [b|] fs S.
  - revert b. induction fs as [|f fs IH]; intros b.
    + exists [], [], []. cbn [cut batch map concat app within]. rewrite firstn_nil, len_nil. repeat split; auto; [exact nil_incomplete|lia].
    + inversion S as [|? ? S1 S2]; subst. destruct (N.leb_spec (len (framed f)) b) as [L|L].
      * destruct (IH S2 (b - len (framed f))) as (pre & post & tail & A1 & A2 & A3 & A4 & A5). exists (f :: pre), post, tail.
        split; [rewrite A1; reflexivity|]. cbn [cut within] in *. rewrite !batch_cons. split; [|split; [exact A3|split]].
        -- rewrite firstn_app. rewrite (firstn_all2 (framed f)) by (unfold len in L; lia). rewrite <- app_assoc, <- A2. f_equal. f_equal. unfold len; lia.
        -- rewrite len_app. lia.
        -- destruct post as [|g post]; [exact I|]. cbn [app]. rewrite batch_cons, len_app. lia.
      * exists [], (f :: fs), (firstn (N.to_nat b) (batch (f :: fs))). split; [reflexivity|]. split; [reflexivity|]. split; [|split].
        -- rewrite batch_cons, framed_delimited. apply strict_incomplete; [apply S1|]. rewrite framed_delimited in L. lia.
        -- cbn [within batch map concat]. rewrite len_nil. lia.
        -- cbn [within app]. rewrite batch_one. lia.
  - exists fs, [], []. rewrite !app_nil_r. repeat split; auto; exact nil_incomplete.
Qed.

Lemma batch_len_mono : forall a b, len (batch a) <= len (batch (a ++ b)).
Proof. intros. rewrite batch_app, len_app. lia. Qed.

Lemma within_less : forall limit a b, a <= b -> within limit b -> within limit a.
Proof. intros [m|] a b H W; cbn in *; [lia|exact I]. Qed.

Lemma split_nth : forall (oks : list bool) n m, length oks = (n + m)%nat -> (forall i, (i < n)%nat -> nth i oks false = true) -> (forall i, (n <= i < n + m)%nat -> nth i oks false = false) ->
  oks = repeat true n ++ repeat false m.
Proof.
  intros oks n m L A B. apply (nth_ext _ _ false false); [rewrite app_length, !repeat_length; exact L|].
  intros i H. rewrite L in H. destruct (Nat.lt_ge_cases i n) as [C|C].
  - rewrite A by exact C. rewrite app_nth1 by (rewrite repeat_length; exact C). symmetry. 
    apply (repeat_spec n true). apply nth_In. rewrite repeat_length. exact C.
  - rewrite B by lia. rewrite app_nth2 by (rewrite repeat_length; lia). rewrite repeat_length. symmetry.
    apply (repeat_spec m false). apply nth_In. rewrite repeat_length. lia.
Qed.

Theorem end_to_end_proof : forall limit fs, Forall sendable fs -> wf (batch fs) ->
  exists pre post w', fs = pre ++ post
    /\ tcp_sends (new_writer (mkSink [] limit)) fs = Ret (Some (repeat true (length pre) ++ repeat false (length post), w'))
    /\ (limit = None -> post = [])
    /\ forall chunks fin, concat chunks = concat (k_written (w_sink w')) -> no_stall chunks -> reads_all (mkReader chunks fin false) (map on_wire pre) (Returns (visible fin)).
Proof.
  intros limit fs S W. destruct (sends_proof limit fs S) as (oks & w' & E & C & L & N).
  destruct (cut_batch limit fs S) as (pre & post & tail & A1 & A2 & A3 & A4 & A5).
  exists pre, post, w'. split; [exact A1|].
  assert (OKS : oks = repeat true (length pre) ++ repeat false (length post)).
  { apply split_nth.
    - rewrite L, A1, app_length. reflexivity.
    - intros i H. assert (H2 : (i < length fs)%nat) by (rewrite A1, app_length; lia).
      destruct (nth_split fs (FCancel 0) H2) as (a & b & Q & La). rewrite <- La. apply (N _ _ _ Q).
      set (x := nth i fs (FCancel 0)) in *. apply (within_less limit _ (len (batch pre))); [|exact A4].
      assert (PE : exists c, pre = (a ++ [x]) ++ c).
      { exists (skipn (length (a ++ [x])) pre). rewrite <- (firstn_skipn (length (a ++ [x])) pre) at 1. f_equal.
        assert (K : firstn (length (a ++ [x])) (pre ++ post) = a ++ [x]) by (rewrite <- A1, Q; change (a ++ x :: b) with (a ++ [x] ++ b); rewrite app_assoc; apply firstn_len_app; reflexivity).
        rewrite firstn_app in K. replace (length (a ++ [x]) - length pre)%nat with O in K by (rewrite app_length; cbn [length]; lia). rewrite firstn_O, app_nil_r in K. exact K. }
      destruct PE as (c & ->). apply batch_len_mono.
    - intros i H. destruct (nth i oks false) eqn:Z; [|reflexivity]. exfalso.
      assert (H2 : (i < length fs)%nat) by (rewrite A1, app_length; lia).
      destruct (nth_split fs (FCancel 0) H2) as (a & b & Q & La). rewrite <- La in Z. apply (N _ _ _ Q) in Z.
      set (x := nth i fs (FCancel 0)) in *. destruct post as [|g post]; [cbn [length] in H; lia|]. apply A5.
      apply (within_less limit _ _ (N.le_refl _)). refine (within_less limit _ _ _ Z).
      assert (PE : exists c, a ++ [x] = (pre ++ [g]) ++ c).
      { exists (skipn (length (pre ++ [g])) (a ++ [x])). rewrite <- (firstn_skipn (length (pre ++ [g])) (a ++ [x])) at 1. f_equal.
        assert (K : firstn (length (pre ++ [g])) ((a ++ [x]) ++ b) = pre ++ [g]) by (rewrite <- app_assoc; cbn [app]; rewrite <- Q, A1; change (pre ++ g :: post) with (pre ++ [g] ++ post); rewrite app_assoc; apply firstn_len_app; reflexivity).
        rewrite firstn_app in K. replace (length (pre ++ [g]) - length (a ++ [x]))%nat with O in K by (rewrite !app_length; cbn [length]; lia). rewrite firstn_O, app_nil_r in K. exact K. }
      destruct PE as (c & ->). apply batch_len_mono. }
  split; [rewrite <- OKS; exact E|]. split.
  - intros ->. destruct post as [|g post]; [reflexivity|]. exfalso. apply A5. exact I.
  - intros chunks fin HC NS. rewrite C, A2 in HC. apply (frames_read pre tail chunks fin).
    + rewrite A1 in S. apply Forall_app in S. apply S.
    + exact A3.
    + exact HC.
    + rewrite HC, <- A2. destruct limit; cbn [cut]; [apply wf_firstn|]; exact W.
    + exact NS.
Qed.

Lemma start_loop_mono : forall a b s r x, (a <= b)%nat -> start_loop a s r = Some x -> start_loop b s r = Some x.
Proof.
  induction a as [|a IH]; intros b s r x AB H; [discriminate|]. destruct b as [|b]; [lia|].
  destruct (tcp_read (Datatypes.S a) s r) as [[[o s'] r']|] eqn:E; [|cbn [start_loop] in H; rewrite E in H; discriminate].
  rewrite (start_loop_step _ _ _ _ _ _ E) in H. rewrite (start_loop_step b s r o s' r') by (eapply tcp_read_mono; [|exact E]; lia).
  destruct o as [l|e|]; try exact H. cbn [loop_one] in *. destruct (start_loop a s' r') as [[fs e]|] eqn:K; [|discriminate].
  rewrite (IH b s' r' (fs, e)); [exact H|lia|exact K].
Qed.
Lemma reads_all_run : forall fuel r fs e, start_loop fuel new_scanner r = Some (fs, e) -> reads_all r fs e.
Proof. intros fuel r fs e H. exists fuel. intros k L. exact (start_loop_mono _ _ _ _ _ L H). Qed.
Lemma split_here : forall n (l : list sender) (d : sender), (n < length l)%nat -> l = firstn n l ++ nth n l d :: skipn (Datatypes.S n) l.
Proof. induction n; intros [|x l] d H; cbn in *; try lia; [reflexivity|]. f_equal. apply IHn. lia. Qed.
