(** What the readers of strings, byte arrays and sizes accept, and ReadAny on arbitrary values. *)
From Coq Require Import List NArith ZArith Lia Bool ZifyBool ZifyNat ZifyN Permutation.
From Verif Require Import Base BaseLemmas OperationsModel MsgpackModel MsgpackSpec MsgpackReadSpec MsgpackIOProofs
  MsgpackProofs MsgpackReadProofs MsgpackSizeProofs MsgpackTreeProofs MsgpackPropsProofs TransformProofs.
Import ListNotations.
Open Scope N_scope.
Ltac Zify.zify_post_hook ::= Z.div_mod_to_equations.

(** ** Heads *)
Definition inverts (m : M N) (H : bytes -> N -> Prop) : Prop := forall pre tail n d',
  fits pre tail -> room pre -> wf tail -> m (at_ pre tail) = Ret (n, d') ->
  exists hd rest, H hd n /\ tail = hd ++ rest /\ d' = at_ (pre ++ hd) rest.

Ltac head_start :=
  intros pre tail n d' F R Wf H;
  destruct (prefix_cases pre tail F R Wf) as [(b & rest & -> & Hb & Wr & G)|(-> & G)];
    rewrite G in H; clear G; [|discriminate H]; apply fits_room_step in F.
Ltac got w := match goal with H : get w _ = _ |- _ => apply (get_inv' w) in H as (r & -> & B & ->); [|lia|assumption..];
  change (256 ^ N.of_nat 1) with (2^8) in B; change (256 ^ N.of_nat 2) with (2^16) in B; change (256 ^ N.of_nat 4) with (2^32) in B end.
Ltac ret_here := match goal with H : rret _ _ = _ |- _ => unfold rret in H; injection H as <- <- end.

Lemma arr_head_inv : inverts ReadArraySize array_size_head.
Proof.
  unfold ReadArraySize. head_start.
  rewrite isFixedArray_range in H by assumption.
  destruct ((144 <=? b) && (b <? 160)) eqn:E.
  { ret_here. rewrite land_0f. exists [b], rest. split; [|split; reflexivity]. left. exists InTag.
    split; [discriminate|]. cbn [len_limit arr_head]. split; [lia|]. f_equal. lia. }
  destruct (N.eqb_spec b FormatArray16) as [->|].
  { got 2%nat. exists (FormatArray16 :: be 2 n), r. split; [|split; reflexivity].
    left. exists Len16. split; [discriminate|]. split; [exact B|reflexivity]. }
  destruct (N.eqb_spec b FormatArray32) as [->|].
  { got 4%nat. exists (FormatArray32 :: be 4 n), r. split; [|split; reflexivity].
    left. exists Len32. split; [discriminate|]. split; [exact B|reflexivity]. }
  destruct (N.eqb_spec b FormatNil) as [->|]; [|discriminate H].
  ret_here. exists [FormatNil], rest. split; [|split; reflexivity]. right. split; reflexivity.
Qed.
Lemma map_head_inv : inverts ReadMapSize map_size_head.
Proof.
  unfold ReadMapSize. head_start.
  rewrite isFixedMap_range in H by assumption.
  destruct ((128 <=? b) && (b <? 144)) eqn:E.
  { ret_here. rewrite land_0f. exists [b], rest. split; [|split; reflexivity]. left. exists InTag.
    split; [discriminate|]. cbn [len_limit map_head]. split; [lia|]. f_equal. lia. }
  destruct (N.eqb_spec b FormatMap16) as [->|].
  { got 2%nat. exists (FormatMap16 :: be 2 n), r. split; [|split; reflexivity].
    left. exists Len16. split; [discriminate|]. split; [exact B|reflexivity]. }
  destruct (N.eqb_spec b FormatMap32) as [->|].
  { got 4%nat. exists (FormatMap32 :: be 4 n), r. split; [|split; reflexivity].
    left. exists Len32. split; [discriminate|]. split; [exact B|reflexivity]. }
  destruct (N.eqb_spec b FormatNil) as [->|]; [|discriminate H].
  ret_here. exists [FormatNil], rest. split; [|split; reflexivity]. right. split; reflexivity.
Qed.
Lemma str_head_inv : inverts readStringLength text_head.
Proof.
  unfold readStringLength. head_start.
  rewrite isFixedString_range, isFixedArray_range in H by assumption.
  destruct ((160 <=? b) && (b <? 192)) eqn:E.
  { ret_here. rewrite land_1f. exists [b], rest. split; [|split; reflexivity]. left. exists InTag.
    cbn [len_limit str_head]. split; [lia|]. f_equal. lia. }
  destruct ((144 <=? b) && (b <? 160)) eqn:E'.
  { ret_here. rewrite land_0f. exists [b], rest. split; [|split; reflexivity]. right. exists InTag.
    split; [discriminate|]. cbn [len_limit arr_head]. split; [lia|]. f_equal. lia. }
  destruct (N.eqb_spec b FormatString8) as [->|].
  { got 1%nat. exists (FormatString8 :: be 1 n), r. split; [|split; reflexivity].
    left. exists Len8. split; [exact B|reflexivity]. }
  destruct (N.eqb_spec b FormatString16) as [->|]; cbn [orb] in H.
  { got 2%nat. exists (FormatString16 :: be 2 n), r. split; [|split; reflexivity].
    left. exists Len16. split; [exact B|reflexivity]. }
  destruct (N.eqb_spec b FormatArray16) as [->|].
  { got 2%nat. exists (FormatArray16 :: be 2 n), r. split; [|split; reflexivity].
    right. exists Len16. split; [discriminate|]. split; [exact B|reflexivity]. }
  destruct (N.eqb_spec b FormatString32) as [->|]; cbn [orb] in H.
  { got 4%nat. exists (FormatString32 :: be 4 n), r. split; [|split; reflexivity].
    left. exists Len32. split; [exact B|reflexivity]. }
  destruct (N.eqb_spec b FormatArray32) as [->|]; [|discriminate H].
  got 4%nat. exists (FormatArray32 :: be 4 n), r. split; [|split; reflexivity].
  right. exists Len32. split; [discriminate|]. split; [exact B|reflexivity].
Qed.
Lemma bin_head_inv : inverts readBinLength blob_head.
Proof.
  unfold readBinLength. head_start.
  rewrite isFixedArray_range in H by assumption.
  destruct ((144 <=? b) && (b <? 160)) eqn:E'.
  { ret_here. rewrite land_0f. exists [b], rest. split; [|split; reflexivity]. right. right.
    cbn [arr_head]. split; [lia|]. f_equal. lia. }
  destruct (N.eqb_spec b FormatNil) as [->|].
  { ret_here. exists [FormatNil], rest. split; [|split; reflexivity]. right. left. split; reflexivity. }
  destruct (N.eqb_spec b FormatBin8) as [->|].
  { got 1%nat. exists (FormatBin8 :: be 1 n), r. split; [|split; reflexivity].
    left. exists Len8. split; [discriminate|]. split; [exact B|reflexivity]. }
  destruct (N.eqb_spec b FormatBin16) as [->|].
  { got 2%nat. exists (FormatBin16 :: be 2 n), r. split; [|split; reflexivity].
    left. exists Len16. split; [discriminate|]. split; [exact B|reflexivity]. }
  destruct (N.eqb_spec b FormatBin32) as [->|]; [|discriminate H].
  got 4%nat. exists (FormatBin32 :: be 4 n), r. split; [|split; reflexivity].
  left. exists Len32. split; [discriminate|]. split; [exact B|reflexivity].
Qed.

Lemma arr_head_reads : forall hd n, array_size_head hd n -> reads ReadArraySize hd n.
Proof.
  intros hd n [(f & D & L & ->)|[-> ->]]; [apply arr_len_reads; assumption|].
  unfold ReadArraySize. apply reads_prefix. apply reads_ret.
Qed.
Lemma map_head_reads : forall hd n, map_size_head hd n -> reads ReadMapSize hd n.
Proof.
  intros hd n [(f & D & L & ->)|[-> ->]]; [apply map_len_reads; assumption|].
  unfold ReadMapSize. apply reads_prefix. apply reads_ret.
Qed.
Lemma str_head_reads : forall hd n, text_head hd n -> reads readStringLength hd n.
Proof.
  intros hd n [(f & L & ->)|(f & D & L & ->)]; [apply str_len_reads; assumption|].
  unfold readStringLength. destruct f; [|congruence|..]; cbn [len_limit] in L; pow_n; cbn [arr_head]; apply reads_prefix.
  - rewrite isFixedString_range, isFixedArray_range by lia.
    replace ((160 <=? 144 + n) && (144 + n <? 192)) with false by lia.
    replace ((144 <=? 144 + n) && (144 + n <? 160)) with true by lia. rewrite land_0f.
    replace ((144 + n) mod 16) with n by lia. apply reads_ret.
  - apply (get_be_step 2). exact L.
  - apply (get_be_step 4). exact L.
Qed.
Lemma bin_head_reads : forall hd n, blob_head hd n -> reads readBinLength hd n.
Proof.
  intros hd n [(f & D & L & ->)|[[-> ->]|[L ->]]]; [apply bin_len_reads; assumption|..].
  - unfold readBinLength. apply reads_prefix. apply reads_ret.
  - unfold readBinLength. cbn [arr_head]. apply reads_prefix. rewrite isFixedArray_range by lia.
    replace ((144 <=? 144 + n) && (144 + n <? 160)) with true by lia. rewrite land_0f.
    replace ((144 + n) mod 16) with n by lia. apply reads_ret.
Qed.

Lemma bounds : forall pre tail : bytes, len pre + len tail < 2^31 -> fits pre tail /\ room pre.
Proof.
  intros pre tail B. change (2^31) with 2147483648 in B. unfold fits, room. change (2^32) with 4294967296. lia.
Qed.

Lemma head_iff : forall m H, inverts m H -> (forall hd n, H hd n -> reads m hd n) ->
  forall pre tail n d', wf tail -> len pre + len tail < 2^31 ->
  (m (mkDR (pre ++ tail) (len pre) false) = Ret (n, d') <->
   exists hd rest, H hd n /\ tail = hd ++ rest /\ d' = mkDR (pre ++ tail) (len pre + len hd) false).
Proof.
  intros m H I J pre tail n d' W B. destruct (bounds pre tail B) as [F R]. split.
  - intro E. destruct (I pre tail n d' F R W E) as (hd & rest & Hh & -> & ->). exists hd, rest.
    split; [exact Hh|]. split; [reflexivity|]. unfold at_. rewrite len_app, <- app_assoc. reflexivity.
  - intros (hd & rest & Hh & -> & ->). pose proof (J hd n Hh pre rest F) as X. unfold at_ in X. rewrite X.
    rewrite len_app, <- app_assoc. reflexivity.
Qed.

(** A string's bytes: a length that leads beyond 2^32 wraps around and makes the slice expression panic. *)
Lemma get_bytes_inv : forall n pre tail s d', fits pre tail -> n < 2^32 -> get_bytes n (at_ pre tail) = Ret (s, d') ->
  exists rest, tail = s ++ rest /\ n = len s /\ d' = at_ (pre ++ s) rest.
Proof.
  intros n pre tail s d' F L E. destruct (N.le_gt_cases n (len tail)) as [C|C].
  - exists (skipn (N.to_nat n) tail).
    assert (T : tail = firstn (N.to_nat n) tail ++ skipn (N.to_nat n) tail) by (symmetry; apply firstn_skipn).
    assert (Ln : n = len (firstn (N.to_nat n) tail)) by (unfold len in *; rewrite firstn_length; lia).
    remember (firstn (N.to_nat n) tail) as x eqn:Hx. remember (skipn (N.to_nat n) tail) as rest eqn:Hr. clear Hx Hr. subst tail.
    rewrite (get_bytes_step x n Ln pre rest F) in E. assert (x = s) by congruence. subst x.
    assert (d' = at_ (pre ++ s) rest) by congruence. auto.
  - exfalso. unfold get_bytes in E. destruct (N.lt_ge_cases (len pre + n) (2^32)) as [D|D].
    + rewrite check_no in E by assumption. discriminate E.
    + destruct (check n (at_ pre tail)) as [[|] d1] eqn:K; [|discriminate E].
      unfold check in K. rewrite at_err, at_buf, at_off in K. unfold fits in F.
      assert (d1 = at_ pre tail) by (destruct (_ <? _); congruence). subst d1.
      rewrite ?at_off, ?at_buf, ?at_err in E.
      assert (U : u32 (len pre + n) = len pre + n - 2^32).
      { unfold u32. symmetry. apply (N.mod_unique _ _ 1); change (2^32) with 4294967296 in *; lia. }
      rewrite U in E.
      replace (len pre <=? len pre + n - 2^32) with false in E by (change (2^32) with 4294967296 in *; lia).
      cbn [andb] in E. discriminate E.
Qed.

Lemma text_small : forall hd n, text_head hd n -> n < 2^32.
Proof.
  intros hd n [(f & L & _)|(f & _ & L & _)]; destruct f; cbn [len_limit] in L; pow_n; change (2^32) with 4294967296; lia.
Qed.
Lemma blob_small : forall hd n, blob_head hd n -> n < 2^32.
Proof.
  intros hd n [(f & _ & L & _)|[[_ ->]|[L _]]]; [destruct f; cbn [len_limit] in L; pow_n|..]; change (2^32) with 4294967296; lia.
Qed.

Lemma bytes_iff : forall m (H : bytes -> N -> Prop), inverts m H -> (forall hd n, H hd n -> reads m hd n) ->
  (forall hd n, H hd n -> n < 2^32) ->
  forall pre tail s d', wf tail -> len pre + len tail < 2^31 ->
  (rbind m get_bytes (mkDR (pre ++ tail) (len pre) false) = Ret (s, d') <->
   exists hd rest, H hd (len s) /\ tail = hd ++ s ++ rest /\
     d' = mkDR (pre ++ tail) (len pre + len hd + len s) false).
Proof.
  intros m H I J S pre tail s d' W B. destruct (bounds pre tail B) as [F R]. split.
  - intro E. change (rbind m get_bytes (at_ pre tail) = Ret (s, d')) in E. unfold rbind in E.
    destruct (m (at_ pre tail)) as [[n d1]|e|] eqn:Em; try discriminate E.
    destruct (I pre tail n d1 F R W Em) as (hd & rest & Hh & -> & ->).
    assert (F' : fits (pre ++ hd) rest) by (apply -> fits_move; exact F).
    destruct (get_bytes_inv n (pre ++ hd) rest s d' F' (S hd n Hh) E) as (r & -> & -> & ->).
    exists hd, r. split; [exact Hh|]. split; [reflexivity|]. unfold at_. rewrite !len_app, <- !app_assoc. reflexivity.
  - intros (hd & rest & Hh & -> & ->). change (mkDR (pre ++ hd ++ s ++ rest) (len pre) false) with (at_ pre (hd ++ s ++ rest)).
    pose proof (reads_bind m get_bytes hd s (len s) s (J _ _ Hh) (get_bytes_step s (len s) eq_refl) pre rest) as X.
    rewrite <- app_assoc in X. rewrite X by exact F. unfold at_. rewrite !len_app, <- !app_assoc, N.add_assoc. reflexivity.
Qed.

(** ** The Go map *)
Lemma feq_sym : forall e m a b, feq e m a b = feq e m b a.
Proof.
  intros. unfold feq. cbv zeta. rewrite (N.eqb_sym a b).
  destruct (_ <? a mod _), (_ <? b mod _); cbn [negb andb]; try reflexivity.
  f_equal. apply andb_comm.
Qed.
Lemma feq_trans : forall e m a b c, feq e m a b = true -> feq e m b c = feq e m a c.
Proof.
  intros e m a b c. unfold feq. cbv zeta. intro H.
  apply andb_prop in H as [H1 H2]. apply andb_prop in H1 as [Ha Hb]. rewrite Ha, Hb. cbn [andb].
  f_equal. apply orb_prop in H2 as [H2|H2].
  - apply N.eqb_eq in H2. subst b. reflexivity.
  - apply andb_prop in H2 as [X Y]. rewrite X, Y. cbn [andb]. apply N.eqb_eq in X, Y.
    destruct (N.eqb_spec b c) as [->|]; destruct (N.eqb_spec a c) as [->|]; cbn [orb]; try reflexivity.
    + rewrite Y. reflexivity.
    + rewrite X. reflexivity.
Qed.
Lemma key_sym : forall a b, key_eq a b = key_eq b a.
Proof.
  intros a c; destruct a, c; try reflexivity; cbn [key_eq]; try apply Z.eqb_sym; try apply N.eqb_sym; try apply feq_sym; try match goal with x : bool, y : bool |- _ => destruct x, y; reflexivity end.
  - match goal with |- context [list_eq_dec N.eq_dec ?x ?y] => destruct (list_eq_dec N.eq_dec x y), (list_eq_dec N.eq_dec y x); congruence end.
Qed.
Lemma key_trans : forall a b c, key_eq a b = true -> key_eq b c = key_eq a c.
Proof.
  intros a c; destruct a as [|x0|x0|x0|x0|x0|x0|x0|x0|x0|x0|x0|x0|x0|x0|x0], c as [|x1|x1|x1|x1|x1|x1|x1|x1|x1|x1|x1|x1|x1|x1|x1]; intros e H; try discriminate H; cbn [key_eq] in H;
    try (apply N.eqb_eq in H; subst; reflexivity); try (apply Z.eqb_eq in H; subst; reflexivity);
    try reflexivity.
  - apply Bool.eqb_prop in H. subst. reflexivity.
  - destruct e; try reflexivity. cbn [key_eq]. apply feq_trans, H.
  - destruct e; try reflexivity. cbn [key_eq]. apply feq_trans, H.
  - match type of H with context [list_eq_dec N.eq_dec ?x ?y] => destruct (list_eq_dec N.eq_dec x y); [subst; reflexivity|discriminate H] end.
Qed.

Lemma put_entry : forall m k v k', entry k' (map_put m k v) = if key_eq k k' then Some (k, v) else entry k' m.
Proof.
  induction m as [|[a b] m IH]; intros k v k'; unfold entry in *; cbn [map_put find].
  - cbn [fst]. destruct (key_eq k k'); reflexivity.
  - destruct (key_eq a k) eqn:E; cbn [find fst].
    + destruct (key_eq k k') eqn:E'; [reflexivity|]. rewrite <- (key_trans a k k' E), E'. reflexivity.
    + destruct (key_eq a k') eqn:E'.
      * destruct (key_eq k k') eqn:E''; [|reflexivity].
        rewrite key_sym in E''. rewrite key_sym in E'. rewrite (key_trans k' a k E') in E. congruence.
      * apply IH.
Qed.
Lemma put_distinct : forall m k v, ForallOrdPairs (fun a b => key_eq (fst a) (fst b) = false) m ->
  ForallOrdPairs (fun a b => key_eq (fst a) (fst b) = false) (map_put m k v).
Proof.
  assert (X : forall (a : dv * dv) m k v, Forall (fun b => key_eq (fst a) (fst b) = false) m -> key_eq (fst a) k = false ->
    Forall (fun b => key_eq (fst a) (fst b) = false) (map_put m k v)).
  { intros a m k v; induction m as [|[c d] m IH]; intros H E; cbn [map_put]; [constructor; auto|].
    inversion H as [|? ? H1 H2]; subst. destruct (key_eq c k); constructor; auto. }
  intros m k v; induction m as [|[a b] m IH]; intro H; cbn [map_put]; [repeat constructor|].
  inversion H as [|? ? H1 H2]; subst. destruct (key_eq a k) eqn:E.
  - constructor; [|assumption]. eapply Forall_impl; [|exact H1]. intros [c d] Q. cbn [fst] in *.
    rewrite (key_trans a k c E). exact Q.
  - constructor; [|apply IH, H2]. apply X; assumption.
Qed.
Lemma put_unfindable : forall m k v,
  unfindable (map_put m k v) = unfindable m ++ (if key_eq k k then [] else [(k, v)]).
Proof.
  induction m as [|[a b] m IH]; intros k v; unfold unfindable in *; cbn [map_put filter].
  - cbn [fst app]. destruct (key_eq k k); reflexivity.
  - destruct (key_eq a k) eqn:E; cbn [filter fst].
    + pose proof (key_trans a k k E) as Q. rewrite E in Q. rewrite Q.
      assert (key_eq a a = true) as ->. { pose proof E as E'. rewrite key_sym in E'. rewrite (key_trans k a a E') . exact E'. }
      cbn [negb]. rewrite app_nil_r. reflexivity.
    + destruct (negb (key_eq a a)); cbn [app]; rewrite IH; reflexivity.
Qed.

Definition put (m : list (dv * dv)) (p : dv * dv) := map_put m (fst p) (snd p).
Lemma find_app : forall {A} (f : A -> bool) l l', find f (l ++ l') = match find f l with Some x => Some x | None => find f l' end.
Proof. induction l as [|x l IH]; intro l'; cbn [app find]; [reflexivity|]. destruct (f x); [reflexivity|apply IH]. Qed.
Lemma puts_assigned : forall ps, assigned ps (fold_left put ps []).
Proof.
  induction ps as [|[k v] ps IH] using rev_ind.
  - split; [constructor|]. split; [reflexivity|constructor].
  - rewrite fold_left_app. cbn [fold_left]. destruct IH as (A & B & C). change (put (fold_left put ps []) (k, v)) with (map_put (fold_left put ps []) k v). split; [|split].
    + apply put_distinct, A.
    + intro k'. rewrite put_entry. rewrite rev_app_distr. unfold entry at 2. rewrite find_app. cbn [rev app find fst].
      destruct (key_eq k k'); [reflexivity|apply B].
    + rewrite put_unfindable. unfold unfindable at 2. rewrite filter_app. cbn [filter fst].
      apply Permutation_app; [exact C|]. destruct (key_eq k k); reflexivity.
Qed.

(** ** ReadAny *)
Fixpoint go_dv (v : mv) : dv :=
  match v with
  | MArr _ l => DArr (map go_dv l)
  | MMap _ l => DMap (fold_left put (map (fun kv => (go_dv (fst kv), go_dv (snd kv))) l) [])
  | v => mv_dv v
  end.

Lemma firstof_good : forall {A} (f : A -> verdict) l, firstof f l = Good -> forall x, In x l -> f x = Good.
Proof.
  intros A f l; induction l as [|a l IH]; intros H x X; [contradiction|]. cbn [firstof fold_right] in H.
  destruct (f a) eqn:E; try discriminate H. destruct X as [<-|X]; [exact E|]. apply IH; assumption.
Qed.

Lemma go_stands : forall v, judge v = Good -> stands_for v (go_dv v).
Proof.
  induction v as [|b|f z|b|b|f s|f s|f l IH|f l IH|f i d] using mv_rec'; intro J; try (constructor; fail).
  - cbn [go_dv]. constructor. cbn [judge] in J. pose proof (firstof_good _ _ J) as G. clear J.
    induction l as [|x l IHl]; constructor.
    + inversion IH; subst. apply H1, G. left; reflexivity.
    + inversion IH; subst. apply IHl; [assumption|]. intros; apply G. right; assumption.
  - cbn [go_dv]. apply sf_map with (ps := map (fun kv => (go_dv (fst kv), go_dv (snd kv))) l); [|apply puts_assigned].
    cbn [judge] in J. pose proof (firstof_good _ _ J) as G. clear J.
    induction l as [|[a b] l IHl]; constructor.
    + inversion IH as [|? ? [H1 H2]]; subst. cbn [fst snd] in *. specialize (G (a, b) (or_introl eq_refl)). cbn [fst snd] in G.
      destruct (judge a); try discriminate G. destruct (judge b); try discriminate G. auto.
    + inversion IH; subst. apply IHl; [assumption|]. intros; apply G. right; assumption.
  - discriminate J.
Qed.

Definition ends {A} (m : M A) (bs : bytes) (c : verdict) (a : A) : Prop :=
  match c with
  | Good => reads m bs a
  | Extension => forall pre rest, fits pre (bs ++ rest) -> exists d, m (at_ pre (bs ++ rest)) = Fail (ReadErr, d)
  | BadKey => forall pre rest, fits pre (bs ++ rest) -> m (at_ pre (bs ++ rest)) = Panic
  end.

Lemma ends_bind : forall {A B} (m : M A) (k : A -> M B) b1 b2 c1 c2 a b,
  ends m b1 c1 a -> (c1 = Good -> ends (k a) b2 c2 b) -> ends (rbind m k) (b1 ++ b2) (andthen c1 c2) b.
Proof.
  intros A B m k b1 b2 c1 c2 a b H1 H2. destruct c1; cbn [andthen ends] in *.
  - specialize (H2 eq_refl). destruct c2; cbn [ends] in *.
    + eapply reads_bind; eassumption.
    + intros pre rest F. rewrite <- app_assoc in *. unfold rbind. rewrite H1 by assumption. apply H2. apply -> fits_move; assumption.
    + intros pre rest F. rewrite <- app_assoc in *. unfold rbind. rewrite H1 by assumption. apply H2. apply -> fits_move; assumption.
  - intros pre rest F. rewrite <- app_assoc in *. unfold rbind. destruct (H1 _ _ F) as [d ->]. exists d. reflexivity.
  - intros pre rest F. rewrite <- app_assoc in *. unfold rbind. rewrite (H1 _ _ F). reflexivity.
Qed.
Lemma ends_bind0 : forall {A B} (m : M A) (k : A -> M B) bs c a b,
  ends m bs c a -> (c = Good -> reads (k a) [] b) -> ends (rbind m k) bs c b.
Proof.
  intros A B m k bs c a b H1 H2. destruct c; cbn [ends] in *.
  - eapply reads_bind0; [eassumption|]. apply H2; reflexivity.
  - intros pre rest F. unfold rbind. destruct (H1 _ _ F) as [d ->]. exists d. reflexivity.
  - intros pre rest F. unfold rbind. rewrite (H1 _ _ F). reflexivity.
Qed.

Lemma times_ends : forall {A B} (body : A -> M A) (g : B -> bytes) (c : B -> verdict) (st : A -> B -> A) l a0,
  (forall x, In x l -> forall a, ends (body a) (g x) (c x) (st a x)) ->
  ends (times (len l) body a0) (flat_map g l) (firstof c l) (fold_left st l a0).
Proof.
  intros A B body g c st l; induction l as [|x l IH]; intros a0 H.
  - change (len (@nil B)) with 0. apply reads_ret.
  - rewrite len_cons. cbn [flat_map fold_left firstof fold_right].
    pose proof (H x (or_introl eq_refl) a0) as Hx. specialize (IH (st a0 x) (fun y Hy => H y (or_intror Hy))).
    pose proof (ends_bind _ (times (len l) body) _ _ _ _ _ _ Hx (fun _ => IH)) as X. unfold firstof in X.
    destruct (andthen (c x) _); cbn [ends] in *; intros pre rest F; specialize (X pre rest F); unfold rbind in X;
      rewrite times_succ; exact X.
Qed.

Lemma fold_map : forall {A B C} (f : A -> B -> A) (g : C -> B) l a, fold_left f (map g l) a = fold_left (fun a c => f a (g c)) l a.
Proof. induction l; intro a0; cbn [map fold_left]; [reflexivity|apply IHl]. Qed.
Lemma fold_snoc : forall {A B} (g : A -> B) l acc, fold_left (fun acc v => acc ++ [g v]) l acc = acc ++ map g l.
Proof. induction l; intro acc; cbn [fold_left map]; [rewrite app_nil_r; reflexivity|]. rewrite IHl, <- app_assoc. reflexivity. Qed.

Lemma readArray_ends : forall rd l, (forall x, In x l -> ends rd (mv_bytes x) (judge x) (go_dv x)) ->
  ends (readArray rd (len l)) (flat_map mv_bytes l) (firstof judge l) (DArr (map go_dv l)).
Proof.
  intros rd l H. unfold readArray. apply ends_bind0 with (a := map go_dv l); [|intro; apply reads_ret].
  change (map go_dv l) with ([] ++ map go_dv l). rewrite <- fold_snoc.
  apply (times_ends (fun acc => let! v := rd in rret (acc ++ [v])) mv_bytes judge (fun acc v => acc ++ [go_dv v])).
  intros x Hx a. apply ends_bind0 with (a := go_dv x); [apply H, Hx|intro; apply reads_ret].
Qed.

Lemma key_hashable : forall k, judge k = Good ->
  hashable (go_dv k) = match key_verdict k with Good => true | _ => false end.
Proof. destruct k as [|b|f z|b|b|f s|f s|f l|f l|f i d]; intro J; try reflexivity. destruct f; reflexivity. Qed.

Lemma readMap_ends : forall rd l,
  (forall x, In x l -> ends rd (mv_bytes (fst x)) (judge (fst x)) (go_dv (fst x)) /\
                       ends rd (mv_bytes (snd x)) (judge (snd x)) (go_dv (snd x))) ->
  ends (readMap rd (len l)) (flat_map (fun kv => mv_bytes (fst kv) ++ mv_bytes (snd kv)) l)
    (firstof (fun kv => andthen (judge (fst kv)) (andthen (judge (snd kv)) (key_verdict (fst kv)))) l)
    (DMap (fold_left put (map (fun kv => (go_dv (fst kv), go_dv (snd kv))) l) [])).
Proof.
  intros rd l H. unfold readMap. rewrite fold_map. eapply ends_bind0; [|intro; apply reads_ret].
  apply (times_ends _ (fun kv : mv * mv => mv_bytes (fst kv) ++ mv_bytes (snd kv)) _ (fun m kv => put m (go_dv (fst kv), go_dv (snd kv)))).
  intros [a b] Hx m. destruct (H _ Hx) as [H1 H2]. cbn [fst snd] in *.
  eapply ends_bind; [exact H1|]. intro Ja.
  rewrite <- (app_nil_r (mv_bytes b)). eapply ends_bind; [exact H2|]. intros _.
  rewrite (key_hashable a Ja). destruct (key_verdict a) eqn:K; cbn [ends].
  - apply (reads_ret (map_put m (go_dv a) (go_dv b))).
  - destruct a; discriminate K.
  - intros pre rest F. reflexivity.
Qed.

Lemma ends_then : forall w n (k : N -> M dv) bs c a, n < 256 ^ N.of_nat w -> ends (k n) bs c a ->
  ends (rbind (get w) k) (be w n ++ bs) c a.
Proof. intros. apply (ends_bind (get w) k _ _ Good c n a); [apply get_be_step; assumption|intros _; assumption]. Qed.
Lemma ends_prefix : forall b (k : N -> M dv) bs c a, b < 256 -> ends (k b) bs c a -> ends (rbind (get 1) k) (b :: bs) c a.
Proof.
  intros b k bs c a L H. change (b :: bs) with ([b] ++ bs). rewrite <- (be1 b L). apply ends_then; [exact L|exact H].
Qed.

Lemma any_ends : forall v, mv_ok v -> forall fuel, (mv_depth v <= fuel)%nat -> ends (ReadAny fuel) (mv_bytes v) (judge v) (go_dv v).
Proof.
  induction v as [|b|f z|b|b|f s|f s|f l IH|f l IH|f i d] using mv_rec'; intros O fuel F;
    try (apply any_tree; [assumption|exact Logic.I|assumption]).
  - destruct fuel as [|fuel]; [cbn [mv_depth] in F; lia|]. cbn [mv_ok mv_depth] in *.
    destruct O as (D & L & O). rewrite all_Forall in O. cbn [mv_bytes go_dv ReadAny judge].
    assert (X : ends (readArray (ReadAny fuel) (len l)) (flat_map mv_bytes l) (firstof judge l) (DArr (map go_dv l))).
    { apply readArray_ends. intros x Hx. rewrite Forall_forall in *. apply IH; auto.
      pose proof (max_list_le (map mv_depth l) (mv_depth x) (in_map _ _ _ Hx)). lia. }
    destruct f; [|congruence|..]; cbn [len_limit] in L; cbn [arr_head app]; (apply ends_prefix; [pow_n; try lia; reflexivity|]).
    + rewrite isFixedInt_range, isNegativeFixedInt_range, isFixedString_range, isFixedArray_range by lia.
      replace ((144 + len l <? 128) || (224 <=? 144 + len l)) with false by lia.
      replace ((160 <=? 144 + len l) && (144 + len l <? 192)) with false by lia.
      replace ((144 <=? 144 + len l) && (144 + len l <? 160)) with true by lia.
      rewrite land_0f. replace ((144 + len l) mod 16) with (len l) by lia. exact X.
    + apply (ends_then 2); [exact L|exact X].
    + apply (ends_then 4); [exact L|exact X].
  - destruct fuel as [|fuel]; [cbn [mv_depth] in F; lia|]. cbn [mv_ok mv_depth] in *.
    destruct O as (D & L & O). rewrite all_Forall in O. cbn [mv_bytes go_dv ReadAny judge].
    assert (X : ends (readMap (ReadAny fuel) (len l)) (flat_map (fun kv => mv_bytes (fst kv) ++ mv_bytes (snd kv)) l)
      (firstof (fun kv => andthen (judge (fst kv)) (andthen (judge (snd kv)) (key_verdict (fst kv)))) l)
      (DMap (fold_left put (map (fun kv => (go_dv (fst kv), go_dv (snd kv))) l) []))).
    { apply readMap_ends. intros [a b] Hx. rewrite Forall_forall in *.
      specialize (IH _ Hx). specialize (O _ Hx). cbn [fst snd] in *.
      pose proof (max_list_le (map (fun kv => Nat.max (mv_depth (fst kv)) (mv_depth (snd kv))) l) _
        (in_map (fun kv => Nat.max (mv_depth (fst kv)) (mv_depth (snd kv))) _ _ Hx)) as Y. cbn [fst snd] in Y.
      split; apply IH; try tauto; lia. }
    destruct f; [|congruence|..]; cbn [len_limit] in L; cbn [map_head app]; (apply ends_prefix; [pow_n; try lia; reflexivity|]).
    + rewrite isFixedInt_range, isNegativeFixedInt_range, isFixedString_range, isFixedArray_range, isFixedMap_range by lia.
      replace ((128 + len l <? 128) || (224 <=? 128 + len l)) with false by lia.
      replace ((160 <=? 128 + len l) && (128 + len l <? 192)) with false by lia.
      replace ((144 <=? 128 + len l) && (128 + len l <? 160)) with false by lia.
      replace ((128 <=? 128 + len l) && (128 + len l <? 144)) with true by lia.
      rewrite land_0f. replace ((128 + len l) mod 16) with (len l) by lia. exact X.
    + apply (ends_then 2); [exact L|exact X].
    + apply (ends_then 4); [exact L|exact X].
  - destruct fuel as [|fuel]; [cbn [mv_depth] in F; lia|]. cbn [judge mv_bytes ReadAny].
    destruct f; cbn [ext_head app].
    + set (t := match len d with 1 => _ | _ => _ end).
      assert (C : t = 0xd4 \/ t = 0xd5 \/ t = 0xd6 \/ t = 0xd7 \/ t = 0xd8).
      { subst t. clear. destruct (len d) as [|q]; [auto|]. destruct q as [q|q|]; [auto| |auto]. destruct q as [q|q|]; [auto| |auto]. destruct q as [q|q|]; [auto| |auto]. destruct q as [q|q|]; auto. }
      clearbody t. apply ends_prefix; [lia|]. intros pre rest G.
      destruct C as [->|[->|[->|[->| ->]]]]; eexists; reflexivity.
    + apply ends_prefix; [reflexivity|]. intros pre rest G. eexists; reflexivity.
    + apply ends_prefix; [reflexivity|]. intros pre rest G. eexists; reflexivity.
    + apply ends_prefix; [reflexivity|]. intros pre rest G. eexists; reflexivity.
Qed.

(** ** Booleans and floats *)
Lemma bool_iff : forall pre tail b d', wf tail -> len pre + len tail < 2^31 ->
  (ReadBool (mkDR (pre ++ tail) (len pre) false) = Ret (b, d') <->
   exists rest, tail = mv_bytes (MBool b) ++ rest /\ d' = mkDR (pre ++ tail) (len pre + 1) false).
Proof.
  intros pre tail v d' W B. destruct (bounds pre tail B) as [F R].
  change (mkDR (pre ++ tail) (len pre) false) with (at_ pre tail). unfold ReadBool.
  destruct (prefix_cases pre tail F R W) as [(b & rest & -> & Hb & Wr & G)|(-> & G)]; rewrite G; clear G.
  - assert (D : at_ (pre ++ [b]) rest = mkDR (pre ++ b :: rest) (len pre + 1) false)
      by (unfold at_; rewrite len_app, <- app_assoc; reflexivity).
    destruct (N.eqb_spec b FormatTrue) as [->|]; [|destruct (N.eqb_spec b FormatFalse) as [->|]].
    + unfold rret. rewrite D. split.
      * intro E. assert (v = true) by congruence. subst v. exists rest. split; [reflexivity|congruence].
      * intros (r & E & ->). destruct v; [congruence|discriminate E].
    + unfold rret. rewrite D. split.
      * intro E. assert (v = false) by congruence. subst v. exists rest. split; [reflexivity|congruence].
      * intros (r & E & ->). destruct v; [discriminate E|congruence].
    + split; [intro E; discriminate E|]. intros (r & E & _). destruct v; injection E as E _; [destruct (n E)|destruct (n0 E)].
  - split; [intro E; discriminate E|]. intros (r & E & _). destruct v; discriminate E.
Qed.

Lemma f64_iff : forall pre tail v d', wf tail -> len pre + len tail < 2^31 ->
  (ReadFloat64 (mkDR (pre ++ tail) (len pre) false) = Ret (v, d') <->
   exists rest, v < 2^64 /\ tail = mv_bytes (MF64 v) ++ rest /\ d' = mkDR (pre ++ tail) (len pre + 9) false).
Proof.
  intros pre tail v d' W B. destruct (bounds pre tail B) as [F R]. split.
  - change (mkDR (pre ++ tail) (len pre) false) with (at_ pre tail). unfold ReadFloat64. intro H.
    destruct (prefix_cases pre tail F R W) as [(b & rest & -> & Hb & Wr & G)|(-> & G)]; rewrite G in H; clear G; [|discriminate H].
    apply fits_room_step in F. destruct (N.eqb_spec b FormatFloat64) as [->|]; [|discriminate H].
    apply (get_inv' 8) in H as (r & -> & L & ->); [|lia|assumption..]. exists r. split; [exact L|]. split; [reflexivity|].
    unfold at_. rewrite len_app, len_cons, be_len, <- app_assoc. reflexivity.
  - intros (rest & L & -> & ->). change (mkDR (pre ++ mv_bytes (MF64 v) ++ rest) (len pre) false) with (at_ pre (mv_bytes (MF64 v) ++ rest)).
    assert (X : reads ReadFloat64 (mv_bytes (MF64 v)) v).
    { unfold ReadFloat64. cbn [mv_bytes]. apply reads_prefix. apply (get_be_step 8). exact L. }
    rewrite (X pre rest F). unfold at_. rewrite len_app, <- app_assoc. cbn [mv_bytes]. rewrite len_cons, be_len. reflexivity.
Qed.

Lemma f32_iff : forall f64to32 pre tail v d', wf tail -> len pre + len tail < 2^31 ->
  (ReadFloat32 f64to32 (mkDR (pre ++ tail) (len pre) false) = Ret (v, d') <->
   (exists rest, v < 2^32 /\ tail = mv_bytes (MF32 v) ++ rest /\ d' = mkDR (pre ++ tail) (len pre + 5) false) \/
   (exists x rest, x < 2^64 /\ v = f64to32 x /\ tail = mv_bytes (MF64 x) ++ rest /\ d' = mkDR (pre ++ tail) (len pre + 9) false)).
Proof.
  intros f64to32 pre tail v d' W B. destruct (bounds pre tail B) as [F R]. split.
  - change (mkDR (pre ++ tail) (len pre) false) with (at_ pre tail). unfold ReadFloat32. intro H.
    destruct (prefix_cases pre tail F R W) as [(b & rest & -> & Hb & Wr & G)|(-> & G)]; rewrite G in H; clear G; [|discriminate H].
    apply fits_room_step in F. destruct (N.eqb_spec b FormatFloat32) as [->|].
    + left. apply (get_inv' 4) in H as (r & -> & L & ->); [|lia|assumption..]. exists r. split; [exact L|]. split; [reflexivity|].
      unfold at_. rewrite len_app, len_cons, be_len, <- app_assoc. reflexivity.
    + destruct (N.eqb_spec b FormatFloat64) as [->|]; [|discriminate H]. right. unfold rbind in H.
      destruct (get 8 _) as [[x d1]|e|] eqn:E; try discriminate H. unfold rret in H.
      assert (v = f64to32 x) by congruence. assert (d1 = d') by congruence. subst v d1. clear H.
      apply (get_inv' 8) in E as (r & -> & L & ->); [|lia|assumption..]. exists x, r.
      split; [exact L|]. split; [reflexivity|]. split; [reflexivity|].
      unfold at_. rewrite len_app, len_cons, be_len, <- app_assoc. reflexivity.
  - intros [(rest & L & -> & ->)|(x & rest & L & -> & -> & ->)].
    + change (mkDR (pre ++ mv_bytes (MF32 v) ++ rest) (len pre) false) with (at_ pre (mv_bytes (MF32 v) ++ rest)).
      assert (X : reads (ReadFloat32 f64to32) (mv_bytes (MF32 v)) v).
      { unfold ReadFloat32. cbn [mv_bytes]. apply reads_prefix. apply (get_be_step 4). exact L. }
      rewrite (X pre rest F). unfold at_. rewrite len_app, <- app_assoc. cbn [mv_bytes]. rewrite len_cons, be_len. reflexivity.
    + change (mkDR (pre ++ mv_bytes (MF64 x) ++ rest) (len pre) false) with (at_ pre (mv_bytes (MF64 x) ++ rest)).
      assert (X : reads (ReadFloat32 f64to32) (mv_bytes (MF64 x)) (f64to32 x)).
      { unfold ReadFloat32. cbn [mv_bytes]. apply reads_prefix. apply (get_then0 8); [exact L|]. apply reads_ret. }
      rewrite (X pre rest F). unfold at_. rewrite len_app, <- app_assoc. cbn [mv_bytes]. rewrite len_cons, be_len. reflexivity.
Qed.

(** ** ReadAny, as stated *)
Lemma any_exact : forall v fuel, mv_ok v -> (length (mv_bytes v) <= fuel)%nat ->
  match judge v with
  | Good => exists w, stands_for v w /\ consumes (ReadAny fuel) (mv_bytes v) w
  | Extension => forall pre rest, len pre + len (mv_bytes v ++ rest) < 2^32 ->
      exists d, ReadAny fuel (mkDR (pre ++ mv_bytes v ++ rest) (len pre) false) = Fail (ReadErr, d)
  | BadKey => forall pre rest, len pre + len (mv_bytes v ++ rest) < 2^32 ->
      ReadAny fuel (mkDR (pre ++ mv_bytes v ++ rest) (len pre) false) = Panic
  end.
Proof.
  intros v fuel O F. pose proof (mv_depth_le v O) as D.
  assert (D' : (mv_depth v <= fuel)%nat) by lia.
  pose proof (any_ends v O fuel D') as E. pose proof (go_stands v) as S.
  destruct (judge v); cbn [ends] in E.
  - exists (go_dv v). split; [apply S; reflexivity|apply reads_consumes, E].
  - intros pre rest G. exact (E pre rest G).
  - intros pre rest G. exact (E pre rest G).
Qed.

Lemma all_in : forall {A} (P : A -> Prop) l, all P l -> forall x, In x l -> P x.
Proof. intros A P l H. apply Forall_forall. rewrite <- all_Forall. exact H. Qed.

Lemma entry_same : forall (m : list (dv * dv)) e, ForallOrdPairs (fun a b => key_eq (fst a) (fst b) = false) m -> In e m ->
  key_eq (fst e) (fst e) = true -> entry (fst e) m = Some e.
Proof.
  induction m as [|x m IH]; intros e D I K; [contradiction|]. inversion D as [|? ? D1 D2]; subst. unfold entry in *. cbn [find].
  destruct I as [->|I]; [rewrite K; reflexivity|]. rewrite Forall_forall in D1. rewrite (D1 e I). apply IH; assumption.
Qed.
Lemma NoDup_ord : forall m, ForallOrdPairs (fun a b : dv * dv => key_eq (fst a) (fst b) = false) m ->
  NoDup (filter (fun e => key_eq (fst e) (fst e)) m).
Proof.
  induction m as [|x m IH]; intro D; cbn [filter]; [constructor|]. inversion D as [|? ? D1 D2]; subst.
  destruct (key_eq (fst x) (fst x)) eqn:E; [|apply IH, D2]. constructor; [|apply IH, D2].
  intro I. apply filter_In in I as [I _]. rewrite Forall_forall in D1. specialize (D1 x I). congruence.
Qed.
Lemma split_filter : forall {A} (f : A -> bool) l, Permutation l (filter f l ++ filter (fun x => negb (f x)) l).
Proof.
  induction l as [|x l IH]; cbn [filter]; [constructor|]. destruct (f x); cbn [negb app].
  - constructor; exact IH.
  - apply Permutation_cons_app, IH.
Qed.
(** [assigned] leaves only the order of the entries open. *)
Lemma assigned_unique : forall ps m m', assigned ps m -> assigned ps m' -> Permutation m m'.
Proof.
  intros ps m m' (D & E & U) (D' & E' & U').
  rewrite (split_filter (fun e => key_eq (fst e) (fst e)) m), (split_filter (fun e => key_eq (fst e) (fst e)) m').
  apply Permutation_app; [|exact (Permutation_trans U (Permutation_sym U'))].
  apply NoDup_Permutation; [apply NoDup_ord, D|apply NoDup_ord, D'|]. intro e. rewrite !filter_In.
  assert (X : forall m m', ForallOrdPairs (fun a b => key_eq (fst a) (fst b) = false) m ->
    (forall k, entry k m = entry k (rev ps)) -> (forall k, entry k m' = entry k (rev ps)) ->
    In e m /\ key_eq (fst e) (fst e) = true -> In e m' /\ key_eq (fst e) (fst e) = true).
  { clear. intros m m' D E E' [I K]. split; [|exact K]. pose proof (entry_same m e D I K) as Q.
    rewrite E, <- E' in Q. apply find_some in Q as [Q _]. exact Q. }
  split; apply X; assumption.
Qed.
