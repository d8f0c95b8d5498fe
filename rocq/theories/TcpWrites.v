From Coq Require Import List NArith ZArith Lia Bool ZifyBool ZifyNat ZifyN.
From Verif Require Import Base BaseLemmas FramesModel FramesSpec FramesProofs BatchSpec BatchProofs TcpModel TcpSpec TcpProofs.
Import ListNotations.
Open Scope N_scope.

(** The writer works and has taken [stuff], or has failed within it. *)
Definition wrote (w : writer) : bytes := concat (k_written (w_sink w)).
Definition left_over (limit : option N) (n : N) : option N := match limit with None => None | Some b => Some (b - n) end.
Definition fine (limit : option N) (w : writer) (stuff : bytes) : Prop :=
  w_ok w = true /\ w_size w = 8192 /\ wrote w ++ w_buf w = stuff /\ len (w_buf w) <= 8192 /\ within limit (len (wrote w)) /\ k_budget (w_sink w) = left_over limit (len (wrote w)).
Definition broken (limit : option N) (w : writer) (stuff : bytes) : Prop :=
  w_ok w = false /\ ~ within limit (len stuff) /\ wrote w = cut limit stuff.

Lemma broken_more : forall limit w a b, broken limit w a -> broken limit w (a ++ b).
Proof.
  intros [m|] w a b (H1 & H2 & H3); cbn [within cut] in *; [|exfalso; apply H2; exact I].
  split; [exact H1|]. split; [cbn [within]; rewrite len_app; lia|]. cbn [cut]. rewrite firstn_app, H3.
  replace (N.to_nat m - length a)%nat with O by (unfold len in H2; lia). rewrite firstn_O, app_nil_r. reflexivity.
Qed.

(** One write on the connection. *)
Lemma sink_ok : forall limit k p n ok k', within limit (len (concat (k_written k))) -> k_budget k = left_over limit (len (concat (k_written k))) ->
  sink_write k p = (n, ok, k') ->
  if ok then n = len p /\ concat (k_written k') = concat (k_written k) ++ p /\ within limit (len (concat (k_written k'))) /\ k_budget k' = left_over limit (len (concat (k_written k')))
  else n < len p /\ ~ within limit (len (concat (k_written k) ++ p)) /\ concat (k_written k') = cut limit (concat (k_written k) ++ p).
Proof.
  intros limit k p n ok k' W B H. unfold sink_write in H. rewrite B in H. destruct limit as [m|]; cbn [left_over within cut] in *.
  - destruct (len p <=? m - len (concat (k_written k))) eqn:F.
    + injection H as <- <- <-. cbn [k_written k_budget]. rewrite concat_app. cbn [concat]. rewrite app_nil_r, len_app.
      split; [reflexivity|]. split; [reflexivity|]. split; [lia|]. f_equal. lia.
    + injection H as <- <- <-. cbn [k_written k_budget]. split; [lia|]. split; [rewrite len_app; lia|].
      rewrite concat_app. cbn [concat]. rewrite app_nil_r. rewrite firstn_app. rewrite (firstn_all2 (concat (k_written k))) by (unfold len in *; lia).
      f_equal. f_equal. unfold len in *. lia.
  - injection H as <- <- <-. cbn [k_written k_budget]. rewrite concat_app. cbn [concat]. rewrite app_nil_r. auto.
Qed.

Lemma flush_ok : forall limit w stuff ok w', fine limit w stuff -> w_flush w = (ok, w') ->
  if ok then fine limit w' stuff /\ w_buf w' = [] else broken limit w' stuff.
Proof.
  intros limit w stuff ok w' (H1 & H2 & H3 & H4 & H5 & H6) E. unfold w_flush in E. rewrite H1 in E.
  destruct (len (w_buf w) =? 0) eqn:Z.
  - injection E as <- <-. split; [unfold fine; auto 10|]. apply len_0. lia.
  - destruct (sink_write (w_sink w) (w_buf w)) as [[n okk] k'] eqn:K. pose proof (sink_ok limit _ _ _ _ _ H5 H6 K) as S. destruct okk.
    + injection E as <- <-. destruct S as (S1 & S2 & S3 & S4). split; [|reflexivity].
      unfold fine, wrote; cbn [w_ok w_size w_buf w_sink]. rewrite app_nil_r. repeat split; auto; [rewrite S2; exact H3|rewrite len_nil; lia].
    + injection E as <- <-. destruct S as (S1 & S2 & S3). unfold broken, wrote; cbn [w_ok w_sink]. unfold wrote in H3. rewrite H3 in *. auto.
Qed.

Lemma write_broken : forall fuel limit w stuff p, broken limit w stuff -> w_write (Datatypes.S fuel) w p = Some (false, w).
Proof. intros fuel limit w stuff p (H & _). cbn [w_write]. rewrite H, andb_false_r. reflexivity. Qed.

Lemma write_fits : forall fuel limit w stuff p, fine limit w stuff -> len p <= 8192 - len (w_buf w) ->
  exists w', w_write (Datatypes.S fuel) w p = Some (true, w') /\ fine limit w' (stuff ++ p).
Proof.
  intros fuel limit w stuff p (H1 & H2 & H3 & H4 & H5 & H6) F. cbn [w_write]. rewrite H1, H2, andb_true_r.
  replace (8192 - len (w_buf w) <? len p) with false by (symmetry; apply N.ltb_ge; lia).
  eexists. split; [reflexivity|]. unfold fine, wrote in *; cbn [w_ok w_size w_buf w_sink]. rewrite app_assoc, H3, len_app. repeat split; auto; lia.
Qed.

Lemma write_direct : forall fuel limit w stuff p, fine limit w stuff -> w_buf w = [] ->
  exists ok w', w_write (Datatypes.S (Datatypes.S fuel)) w p = Some (ok, w') /\ if ok then fine limit w' (stuff ++ p) else broken limit w' (stuff ++ p).
Proof.
  intros fuel limit w stuff p F B. destruct (N.leb_spec (len p) 8192) as [L|L].
  - destruct (write_fits (Datatypes.S fuel) limit w stuff p F) as (w' & E & K); [rewrite B, len_nil; lia|]. exists true, w'. auto.
  - pose proof F as (H1 & H2 & H3 & H4 & H5 & H6). cbn [w_write]. rewrite H1, H2, B, len_nil, andb_true_r.
    replace (8192 - 0 <? len p) with true by (symmetry; apply N.ltb_lt; lia). change (0 =? 0) with true. cbv iota.
    destruct (sink_write (w_sink w) p) as [[n okk] k'] eqn:K. pose proof (sink_ok limit _ _ _ _ _ H5 H6 K) as S. cbn [w_size w_buf w_ok w_sink].
    rewrite B in H3. rewrite app_nil_r in H3. unfold wrote in H3. rewrite H3 in S. destruct okk.
    + destruct S as (S1 & S2 & S3 & S4). subst n.
      rewrite skipn_all2 by (unfold len; lia). rewrite len_nil. change (8192 - 0 <? 0) with false. cbn [andb].
      exists true. eexists. split; [reflexivity|]. unfold fine, wrote; cbn [w_ok w_size w_buf w_sink app]. rewrite app_nil_r, len_nil. repeat split; auto. lia.
    + destruct S as (S1 & S2 & S3). rewrite andb_false_r. exists false. eexists. split; [reflexivity|].
      unfold broken, wrote; cbn [w_ok w_sink]. auto.
Qed.

Lemma write_ok : forall limit w stuff p, fine limit w stuff -> exists ok w', w_write 4 w p = Some (ok, w') /\ if ok then fine limit w' (stuff ++ p) else broken limit w' (stuff ++ p).
Proof.
  intros limit w stuff p F. destruct (N.leb_spec (len p) (8192 - len (w_buf w))) as [L|L].
  - destruct (write_fits 3 limit w stuff p F L) as (w' & E & K). exists true, w'. auto.
  - destruct (N.eqb_spec (len (w_buf w)) 0) as [Z|Z]; [apply (write_direct 2 limit w stuff p F); apply len_0; exact Z|].
    pose proof F as (H1 & H2 & H3 & H4 & H5 & H6). 
    set (n := N.to_nat (8192 - len (w_buf w))) in *.
    assert (UNF : w_write 4 w p = let '(_, w') := w_flush (mkWriter (w_buf w ++ firstn n p) 8192 true (w_sink w)) in w_write 3 w' (skipn n p)).
    { change (w_write 4 w p) with (if (w_size w - len (w_buf w) <? len p) && w_ok w then
        if len (w_buf w) =? 0 then let '(n, ok, k) := sink_write (w_sink w) p in w_write 3 (mkWriter (w_buf w) (w_size w) ok k) (skipn (N.to_nat n) p)
        else let n := N.to_nat (w_size w - len (w_buf w)) in let '(_, w') := w_flush (mkWriter (w_buf w ++ firstn n p) (w_size w) (w_ok w) (w_sink w)) in w_write 3 w' (skipn n p)
        else if w_ok w then Some (true, mkWriter (w_buf w ++ p) (w_size w) true (w_sink w)) else Some (false, w)).
      rewrite H1, H2. replace (8192 - len (w_buf w) <? len p) with true by (symmetry; apply N.ltb_lt; lia).
      replace (len (w_buf w) =? 0) with false by (symmetry; apply N.eqb_neq; exact Z). reflexivity. }
    rewrite UNF.
    destruct (w_flush (mkWriter (w_buf w ++ firstn n p) 8192 true (w_sink w))) as [ok1 w1] eqn:FL.
    assert (F1 : fine limit (mkWriter (w_buf w ++ firstn n p) 8192 true (w_sink w)) (stuff ++ firstn n p)).
    { unfold fine, wrote in *; cbn [w_ok w_size w_buf w_sink]. rewrite app_assoc, H3, len_app, len_firstn. repeat split; auto. unfold n. lia. }
    pose proof (flush_ok limit _ _ _ _ F1 FL) as K. destruct ok1.
    + destruct K as [K1 K2]. destruct (write_direct 1 limit w1 _ (skipn n p) K1 K2) as (ok & w' & E & G). exists ok, w'. split; [exact E|].
      rewrite <- app_assoc, firstn_skipn in G. exact G.
    + exists false, w1. split; [exact (write_broken 2 limit w1 _ (skipn n p) K)|]. apply (broken_more _ _ _ (skipn n p)) in K. rewrite <- app_assoc, firstn_skipn in K. exact K.
Qed.

Lemma send_parts : forall f, sendable f -> MustNewUint24 (frame_size f) = Ret (bytes3 (len (wire f))) /\ frame_encode f (repeat 0 (N.to_nat (frame_size f))) = Ret (wire f).
Proof.
  intros f [R L]. rewrite (frame_size_wire f R). split.
  - unfold MustNewUint24. pose proof (NewUint24_bytes3 (len (wire f))) as B. destruct (NewUint24 (len (wire f))) as [b o] eqn:E. cbn [fst] in B.
    unfold NewUint24 in E. replace (MaxUint24 <? len (wire f)) with false in E by (symmetry; apply N.ltb_ge; unfold MaxUint24; change (2^24) with 16777216 in L; lia).
    assert (o = None) by congruence. subst o. rewrite B. reflexivity.
  - pose proof (frame_bytes_wire f R) as B. unfold frame_bytes in B. rewrite (frame_size_wire f R) in B. exact B.
Qed.

Lemma send_ok : forall limit w stuff f, sendable f -> fine limit w stuff -> w_buf w = [] ->
  exists ok w', tcp_send w f = Ret (Some (ok, w')) /\ if ok then fine limit w' (stuff ++ framed f) /\ w_buf w' = [] else broken limit w' (stuff ++ framed f).
Proof.
  intros limit w stuff f S F B. destruct (send_parts f S) as [P1 P2].
  unfold tcp_send, tcp_write, write_length. rewrite P1. cbn [bind].
  destruct (write_ok limit w stuff (bytes3 (len (wire f))) F) as (ok1 & w1 & E1 & K1). rewrite E1. destruct ok1; [|exists false, w1; split; [reflexivity|]].
  - unfold write_body. rewrite P2. cbn [bind].
    destruct (write_ok limit w1 _ (wire f) K1) as (ok2 & w2 & E2 & K2). rewrite E2. rewrite <- app_assoc in K2. fold (framed f) in K2.
    destruct ok2; [|exists false, w2; split; [reflexivity|exact K2]].
    destruct (w_flush w2) as [ok3 w3] eqn:E3. exists ok3, w3. split; [reflexivity|]. exact (flush_ok _ _ _ _ _ K2 E3).
  - apply (broken_more _ _ _ (wire f)) in K1. rewrite <- app_assoc in K1. exact K1.
Qed.

Lemma send_broken : forall limit w stuff f, sendable f -> broken limit w stuff -> tcp_send w f = Ret (Some (false, w)).
Proof.
  intros limit w stuff f S B. destruct (send_parts f S) as [P1 P2]. unfold tcp_send, tcp_write, write_length. rewrite P1. cbn [bind].
  rewrite (write_broken 3 limit w stuff _ B). reflexivity.
Qed.

Lemma cut_within : forall limit bs, within limit (len bs) -> cut limit bs = bs.
Proof. intros [m|] bs H; [|reflexivity]. cbn in *. apply firstn_all2. unfold len in H. lia. Qed.

Lemma sends_ok : forall limit fs w done, Forall sendable fs -> ((fine limit w (batch done) /\ w_buf w = []) \/ broken limit w (batch done)) ->
  exists oks w', tcp_sends w fs = Ret (Some (oks, w')) /\ wrote w' = cut limit (batch (done ++ fs)) /\ length oks = length fs
    /\ forall pre f post, fs = pre ++ f :: post -> (nth (length pre) oks false = true <-> within limit (len (batch (done ++ pre ++ [f])))).
Proof.
  induction fs as [|f fs IH]; intros w done S H.
  - exists [], w. split; [reflexivity|]. split; [|split; [reflexivity|intros [|? ?] g post E; discriminate]].
    rewrite app_nil_r. destruct H as [[(F1 & F2 & F3 & F4 & F5 & F6) B]|(B1 & B2 & B3)].
    + rewrite B, app_nil_r in F3. rewrite <- F3 in *. symmetry. apply cut_within. exact F5.
    + exact B3.
  - inversion S as [|? ? S1 S2]; subst. cbn [tcp_sends].
    assert (X : exists ok w1, tcp_send w f = Ret (Some (ok, w1)) /\ ((fine limit w1 (batch (done ++ [f])) /\ w_buf w1 = []) \/ broken limit w1 (batch (done ++ [f])))
              /\ (ok = true <-> within limit (len (batch (done ++ [f]))))).
    { rewrite batch_app, batch_one. destruct H as [[F B]|B].
      - destruct (send_ok limit w _ f S1 F B) as (ok & w1 & E & K). exists ok, w1. split; [exact E|]. destruct ok.
        + split; [left; exact K|]. split; [intros _|reflexivity]. destruct K as [(F1 & F2 & F3 & F4 & F5 & F6) K2]. rewrite K2, app_nil_r in F3. rewrite <- F3. exact F5.
        + split; [right; exact K|]. destruct K as (_ & K & _). split; [discriminate|intros; contradiction].
      - exists false, w. split; [exact (send_broken limit w _ f S1 B)|]. apply (broken_more _ _ _ (framed f)) in B. split; [right; exact B|].
        destruct B as (_ & K & _). split; [discriminate|intros; contradiction]. }
    destruct X as (ok & w1 & E & K & Q). rewrite E. cbn [bind].
    destruct (IH w1 (done ++ [f]) S2 K) as (oks & w' & E2 & C & L & N). rewrite E2. cbn [bind].
    exists (ok :: oks), w'. split; [reflexivity|]. rewrite <- app_assoc in C. split; [exact C|]. split; [cbn [length]; congruence|].
    intros [|g pre] h post P.
    + cbn [app] in P. injection P as <- <-. cbn [length nth app]. exact Q.
    + cbn [app] in P. injection P as <- P. cbn [length nth]. rewrite (N _ _ _ P). rewrite <- app_assoc. reflexivity.
Qed.

Theorem sends_proof : forall limit fs, Forall sendable fs ->
  exists oks w', tcp_sends (new_writer (mkSink [] limit)) fs = Ret (Some (oks, w')) /\ concat (k_written (w_sink w')) = cut limit (batch fs) /\ length oks = length fs
    /\ forall pre f post, fs = pre ++ f :: post -> (nth (length pre) oks false = true <-> within limit (len (batch (pre ++ [f])))).
Proof.
  intros limit fs S. destruct (sends_ok limit fs (new_writer (mkSink [] limit)) [] S) as (oks & w' & A).
  - left. split; [|reflexivity]. unfold fine, wrote; cbn [new_writer w_ok w_size w_buf w_sink k_written concat app]. rewrite len_nil. repeat split; auto; [lia|destruct limit; cbn; [lia|exact I]|].
    cbn [k_budget]. destruct limit; [cbn [left_over]; rewrite N.sub_0_r|]; reflexivity.
  - exists oks, w'. exact A.
Qed.

Theorem oversize_proof : forall w f, frame_in_range f -> 2^24 <= len (wire f) -> tcp_send w f = Panic.
Proof.
  intros w f R L. unfold tcp_send, tcp_write, write_length, MustNewUint24, NewUint24. rewrite (frame_size_wire f R).
  replace (MaxUint24 <? len (wire f)) with true by (symmetry; apply N.ltb_lt; unfold MaxUint24; change (2^24) with 16777216 in L; lia). reflexivity.
Qed.
