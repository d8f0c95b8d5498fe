(** Skip and ReadAny on arbitrary MessagePack values. *)
From Coq Require Import List NArith ZArith Lia Bool ZifyBool ZifyNat ZifyN Permutation.
From Verif Require Import Base BaseLemmas OperationsModel MsgpackModel MsgpackSpec MsgpackIOProofs MsgpackProofs
  MsgpackReadProofs MsgpackSizeProofs.
Import ListNotations.
Open Scope N_scope.
Ltac Zify.zify_post_hook ::= Z.div_mod_to_equations.

Lemma mv_rec' : forall P : mv -> Prop,
  P MNil -> (forall b, P (MBool b)) -> (forall f z, P (MInt f z)) -> (forall b, P (MF32 b)) -> (forall b, P (MF64 b)) ->
  (forall f s, P (MStr f s)) -> (forall f s, P (MBin f s)) -> (forall f l, Forall P l -> P (MArr f l)) ->
  (forall f l, Forall (fun kv => P (fst kv) /\ P (snd kv)) l -> P (MMap f l)) ->
  (forall f i d, P (MExt f i d)) -> forall v, P v.
Proof.
  intros P H1 H2 H3 H4 H5 H6 H7 H8 H9 H10. fix IH 1. intros [|b|f z|b|b|f s|f s|f l|f l|f i d].
  - exact H1.
  - apply H2.
  - apply H3.
  - apply H4.
  - apply H5.
  - apply H6.
  - apply H7.
  - apply H8. induction l; constructor; [apply IH|assumption].
  - apply H9. induction l as [|[a b] l]; constructor; [split; apply IH|assumption].
  - apply H10.
Qed.

(** ** Counted loops *)
Lemma iter_stop : forall {A} n (body : A -> M A) r, (forall a d, r <> Ret (a, d)) ->
  N.iter n (fun r => match r with Ret (a, d) => body a d | other => other end) r = r.
Proof.
  intros A n body r H. induction n as [|n IH] using N.peano_ind; [reflexivity|].
  rewrite N.iter_succ, IH. destruct r as [[a d]|e|]; [destruct (H a d eq_refl)|reflexivity|reflexivity].
Qed.
Lemma times_0 : forall {A} (body : A -> M A) a d, times 0 body a d = Ret (a, d).
Proof. reflexivity. Qed.
Lemma times_succ : forall {A} n (body : A -> M A) a d,
  times (1 + n) body a d = match body a d with Ret (a', d') => times n body a' d' | other => other end.
Proof.
  intros A n body a d. unfold times. rewrite N.add_1_l, N.iter_succ_r.
  destruct (body a d) as [[a' d']|e|]; [reflexivity|apply iter_stop; discriminate|apply iter_stop; discriminate].
Qed.

Lemma times_reads : forall {A B} (body : A -> M A) (g : B -> bytes) (st : A -> B -> A) l a0,
  (forall x, In x l -> forall a, reads (body a) (g x) (st a x)) ->
  reads (times (len l) body a0) (flat_map g l) (fold_left st l a0).
Proof.
  intros A B body g st l; induction l as [|x l IH]; intros a0 H.
  - change (len (@nil B)) with 0. apply reads_ret.
  - rewrite len_cons. cbn [flat_map fold_left]. intros pre rest F. rewrite times_succ.
    rewrite <- app_assoc in F. rewrite <- app_assoc.
    rewrite (H x (or_introl eq_refl)) by assumption.
    rewrite (IH (st a0 x)).
    + rewrite <- app_assoc. reflexivity.
    + intros y Hy. apply H. right; assumption.
    + apply -> fits_move; assumption.
Qed.

(** ** Depth *)
Definition max_list (l : list nat) : nat := fold_right Nat.max 0%nat l.
Fixpoint mv_depth (v : mv) : nat :=
  match v with
  | MArr _ l => S (max_list (map mv_depth l))
  | MMap _ l => S (max_list (map (fun kv => Nat.max (mv_depth (fst kv)) (mv_depth (snd kv))) l))
  | _ => 1%nat
  end.
Lemma max_list_le : forall l x, In x l -> (x <= max_list l)%nat.
Proof. induction l; cbn; intros x H; [contradiction|]. destruct H as [<-|H]; [lia|]. specialize (IHl x H). unfold max_list in IHl. lia. Qed.
Lemma max_list_bound : forall l n, (forall x, In x l -> (x <= n)%nat) -> (max_list l <= n)%nat.
Proof.
  induction l; cbn; intros n H; [lia|]. apply Nat.max_lub; [apply H; left; reflexivity|].
  apply IHl. intros x Hx. apply H. right; assumption.
Qed.
Lemma flat_In_le : forall {A} (g : A -> bytes) l x, In x l -> (length (g x) <= length (flat_map g l))%nat.
Proof.
  induction l; cbn; intros x H; [contradiction|]. rewrite app_length. destruct H as [<-|H]; [lia|]. specialize (IHl x H). lia.
Qed.

Lemma mv_depth_le : forall v, mv_ok v -> (mv_depth v <= length (mv_bytes v))%nat.
Proof.
  induction v as [|b|f z|b|b|f s|f s|f l IH|f l IH|f i d] using mv_rec'; intro H; cbn [mv_depth mv_bytes mv_ok] in *;
    rewrite ?app_length; cbn [length]; try lia.
  - unfold int_bytes. rewrite app_length, be_length. destruct f; cbn; lia.
  - destruct f; cbn [str_head length]; lia.
  - destruct H as [D _]. destruct f; [congruence|..]; cbn [bin_head length]; lia.
  - destruct H as (D & _ & H). rewrite all_Forall in H.
    assert (X : (max_list (map mv_depth l) <= length (flat_map mv_bytes l))%nat).
    { apply max_list_bound. intros x Hx. apply in_map_iff in Hx as (v & <- & Hv). rewrite Forall_forall in *.
      eapply Nat.le_trans; [apply IH; auto|]. apply flat_In_le; assumption. }
    destruct f; [|congruence|..]; cbn [arr_head length]; lia.
  - destruct H as (D & _ & H). rewrite all_Forall in H.
    assert (X : (max_list (map (fun kv => Nat.max (mv_depth (fst kv)) (mv_depth (snd kv))) l)
                 <= length (flat_map (fun kv => mv_bytes (fst kv) ++ mv_bytes (snd kv)) l))%nat).
    { apply max_list_bound. intros x Hx. apply in_map_iff in Hx as ([a b] & <- & Hv). rewrite Forall_forall in *.
      specialize (IH _ Hv). specialize (H _ Hv). cbn [fst snd] in *.
      eapply Nat.le_trans; [|apply (flat_In_le (fun kv => mv_bytes (fst kv) ++ mv_bytes (snd kv)) l _ Hv)].
      cbn [fst snd]. rewrite app_length. destruct IH as [I1 I2], H as [H1 H2]. specialize (I1 H1). specialize (I2 H2). lia. }
    destruct f; [|congruence|..]; cbn [map_head length]; lia.
Qed.

(** ** Skip *)
Lemma reads_tt : forall (m : M unit) bs, reads m bs tt -> reads (let! _ := m in rret 0) bs 0.
Proof. intros. apply reads_bind0 with (a := tt); [assumption|apply reads_ret]. Qed.
Lemma ign_discard : forall n bs, n = len bs -> reads (let! _ := ign (discard n) in rret 0) bs 0.
Proof. intros. apply reads_tt, ign_step, discard_step. assumption. Qed.
Lemma get_discard : forall w n bs, n = len bs -> n < 256 ^ N.of_nat w ->
  reads (let! n := get w in let! _ := discard n in rret 0) (be w n ++ bs) 0.
Proof.
  intros w n bs E L. apply reads_bind with (a := n); [apply get_be_step; assumption|].
  apply reads_tt, discard_step. assumption.
Qed.

Lemma getSize_int : forall f z, int_range f z -> reads getSize (int_bytes f z) 0.
Proof.
  intros f z R. unfold getSize, int_bytes.
  destruct f; cbn [int_tag int_width app]; try (apply reads_prefix; apply ign_discard; rewrite be_len; reflexivity).
  - change (256 ^ Z.of_nat 1)%Z with 256%Z. cbn [int_range] in R. rewrite be1 by lia. apply reads_prefix.
    rewrite isFixedInt_range, isNegativeFixedInt_range by lia.
    replace ((224 <=? Z.to_N (z mod 256)) || (Z.to_N (z mod 256) <? 128)) with true by lia. apply reads_ret.
  - change (256 ^ Z.of_nat 1)%Z with 256%Z. cbn [int_range] in R. rewrite be1 by lia. apply reads_prefix.
    rewrite isFixedInt_range, isNegativeFixedInt_range by lia.
    replace ((224 <=? Z.to_N (z mod 256)) || (Z.to_N (z mod 256) <? 128)) with true by lia. apply reads_ret.
Qed.

Lemma getSize_str : forall f s, len s < len_limit 32 f -> reads getSize (str_head f (len s) ++ s) 0.
Proof.
  intros f s H. unfold getSize. destruct f; cbn [len_limit] in H; cbn [str_head app]; apply reads_prefix.
  - rewrite isFixedInt_range, isNegativeFixedInt_range, isFixedString_range by lia.
    replace ((224 <=? 160 + len s) || (160 + len s <? 128)) with false by lia.
    replace ((160 <=? 160 + len s) && (160 + len s <? 192)) with true by lia.
    rewrite land_1f. apply ign_discard. lia.
  - apply (get_discard 1); [reflexivity|exact H].
  - apply (get_discard 2); [reflexivity|exact H].
  - apply (get_discard 4); [reflexivity|exact H].
Qed.
Lemma getSize_bin : forall f s, f <> InTag -> len s < len_limit 0 f -> reads getSize (bin_head f (len s) ++ s) 0.
Proof.
  intros f s D H. unfold getSize. destruct f; [congruence|..]; cbn [len_limit] in H; cbn [bin_head app]; apply reads_prefix.
  - apply (get_discard 1); [reflexivity|exact H].
  - apply (get_discard 2); [reflexivity|exact H].
  - apply (get_discard 4); [reflexivity|exact H].
Qed.
Lemma getSize_arr : forall f n, f <> Len8 -> n < len_limit 16 f -> reads getSize (arr_head f n) n.
Proof.
  intros f n D H. unfold getSize. destruct f; [|congruence|..]; cbn [len_limit] in H; cbn [arr_head app]; apply reads_prefix.
  - rewrite isFixedInt_range, isNegativeFixedInt_range, isFixedString_range, isFixedArray_range by lia.
    replace ((224 <=? 144 + n) || (144 + n <? 128)) with false by lia.
    replace ((160 <=? 144 + n) && (144 + n <? 192)) with false by lia.
    replace ((144 <=? 144 + n) && (144 + n <? 160)) with true by lia.
    rewrite land_0f. replace ((144 + n) mod 16) with n by lia. apply reads_ret.
  - apply (get_be_step 2). exact H.
  - apply (get_be_step 4). exact H.
Qed.
Lemma getSize_map : forall f n, f <> Len8 -> n < len_limit 16 f -> n < 2^31 -> reads getSize (map_head f n) (2 * n).
Proof.
  intros f n D H B. change (2^31) with 2147483648 in B.
  unfold getSize. destruct f; [|congruence|..]; cbn [len_limit] in H; cbn [map_head app]; apply reads_prefix.
  - rewrite isFixedInt_range, isNegativeFixedInt_range, isFixedString_range, isFixedArray_range, isFixedMap_range by lia.
    replace ((224 <=? 128 + n) || (128 + n <? 128)) with false by lia.
    replace ((160 <=? 128 + n) && (128 + n <? 192)) with false by lia.
    replace ((144 <=? 128 + n) && (128 + n <? 160)) with false by lia.
    replace ((128 <=? 128 + n) && (128 + n <? 144)) with true by lia.
    rewrite land_0f. replace ((128 + n) mod 16) with n by lia. apply reads_ret.
  - apply reads_bind0 with (a := n); [apply (get_be_step 2); exact H|]. 
    rewrite <- (u32_small (2 * n)) at 2 by (pow_n; lia). apply reads_ret.
  - apply reads_bind0 with (a := n); [apply (get_be_step 4); exact H|].
    rewrite <- (u32_small (2 * n)) at 2 by (pow_n; lia). apply reads_ret.
Qed.

Lemma skip_leaf : forall f bs, reads getSize bs 0 -> reads (Skip (S f)) bs tt.
Proof. intros f bs H. cbn [Skip]. apply reads_bind0 with (a := 0); [exact H|]. apply (reads_ret tt). Qed.

Lemma flat_map_pairs : forall (l : list (mv * mv)),
  flat_map (fun kv => mv_bytes (fst kv) ++ mv_bytes (snd kv)) l = flat_map mv_bytes (flat_map (fun kv => [fst kv; snd kv]) l).
Proof.
  induction l as [|[a b] l IH]; cbn [flat_map fst snd app]; [reflexivity|]. rewrite IH, <- app_assoc. reflexivity.
Qed.
Lemma len_pairs : forall (l : list (mv * mv)), len (flat_map (fun kv => [fst kv; snd kv]) l) = 2 * len l.
Proof. induction l; cbn [flat_map app]; [reflexivity|]. rewrite !len_cons, IHl. lia. Qed.

Lemma fold_tt : forall {B} (l : list B), fold_left (fun (_ : unit) (_ : B) => tt) l tt = tt.
Proof. induction l; [reflexivity|assumption]. Qed.

Lemma times_tt : forall {B} (m : M unit) (g : B -> bytes) l, (forall x, In x l -> reads m (g x) tt) ->
  reads (times (len l) (fun _ => m) tt) (flat_map g l) tt.
Proof.
  intros B m g l H. pose proof (times_reads (fun _ => m) g (fun (_ : unit) (_ : B) => tt) l tt) as X.
  rewrite fold_tt in X. apply X. intros x Hx _. apply H, Hx.
Qed.

Lemma skip_tree : forall v, mv_ok v -> skippable v -> forall fuel, (mv_depth v <= fuel)%nat -> reads (Skip fuel) (mv_bytes v) tt.
Proof.
  induction v as [|b|f z|b|b|f s|f s|f l IH|f l IH|f i d] using mv_rec'; intros O S fuel F;
    (destruct fuel as [|fuel]; [cbn [mv_depth] in F; lia|]); cbn [mv_bytes mv_ok skippable mv_depth] in *.
  - apply skip_leaf. apply reads_prefix. apply reads_ret.
  - apply skip_leaf. apply reads_prefix. destruct b; apply reads_ret.
  - apply skip_leaf. apply getSize_int; assumption.
  - apply skip_leaf. apply reads_prefix. apply ign_discard. rewrite be_len. reflexivity.
  - apply skip_leaf. apply reads_prefix. apply ign_discard. rewrite be_len. reflexivity.
  - apply skip_leaf. apply getSize_str. tauto.
  - apply skip_leaf. apply getSize_bin; tauto.
  - destruct O as (D & L & O). rewrite all_Forall in O, S. cbn [Skip].
    eapply reads_bind; [apply getSize_arr; assumption|].
    apply times_tt. intros x Hx.
    rewrite Forall_forall in *. apply IH; auto.
    pose proof (max_list_le (map mv_depth l) (mv_depth x) (in_map _ _ _ Hx)). lia.
  - destruct O as (D & L & O). destruct S as [L31 S]. rewrite all_Forall in O, S. cbn [Skip].
    eapply reads_bind; [apply getSize_map; assumption|].
    rewrite flat_map_pairs, <- len_pairs. apply times_tt. intros x Hx.
    apply in_flat_map in Hx as ([a b] & Hkv & Hx).
    rewrite Forall_forall in *. specialize (IH _ Hkv). specialize (O _ Hkv). specialize (S _ Hkv).
    cbn [fst snd] in *.
    pose proof (max_list_le (map (fun kv => Nat.max (mv_depth (fst kv)) (mv_depth (snd kv))) l) _
      (in_map (fun kv => Nat.max (mv_depth (fst kv)) (mv_depth (snd kv))) _ _ Hkv)) as X. cbn [fst snd] in X.
    destruct Hx as [<-|[<-|[]]]; apply IH; try tauto; lia.
  - destruct S as [-> N1]. destruct O as (I & W & L). apply skip_leaf. cbn [ext_head].
    destruct L as [L|[L|[L|[L|[L|[]]]]]]; rewrite <- L; try congruence; cbn [app]; apply reads_prefix; apply ign_discard;
    rewrite len_cons; lia.
Qed.

(** What Skip does on the extensions it does not know. *)
Lemma skip_fixext1 : forall fuel i b pre rest, fits pre (0xd4 :: i :: b :: rest) ->
  Skip (S fuel) (at_ pre (0xd4 :: i :: b :: rest)) = Ret (tt, at_ (pre ++ [0xd4; i]) (b :: rest)).
Proof.
  intros fuel i b pre rest F. cbn [Skip].
  assert (X : reads getSize [0xd4; i] 0) by (apply reads_prefix, ign_discard; reflexivity).
  pose proof (skip_leaf fuel _ X pre (b :: rest)) as Y. apply Y. exact F.
Qed.
Lemma skip_ext : forall fuel t pre rest, In t [0xc7; 0xc8; 0xc9] -> fits pre (t :: rest) ->
  Skip (S fuel) (at_ pre (t :: rest)) = Fail (ReadErr, at_ (pre ++ [t]) rest).
Proof.
  intros fuel t pre rest H F. cbn [Skip]. unfold getSize, rbind.
  pose proof (get1 t pre rest) as G. cbn [app] in G. rewrite G by assumption.
  destruct H as [<-|[<-|[<-|[]]]]; reflexivity.
Qed.

(** ** ReadAny *)
Lemma map_put_new : forall m k v, Forall (fun e => key_eq (fst e) k = false) m -> map_put m k v = m ++ [(k, v)].
Proof.
  induction m as [|[k' v'] m IH]; intros k v H; [reflexivity|]. cbn [map_put app].
  inversion H as [|? ? H1 H2]; subst. cbn [fst] in H1. rewrite H1, IH by assumption. reflexivity.
Qed.

Definition put_mv (m : list (dv * dv)) (kv : mv * mv) : list (dv * dv) := map_put m (mv_dv (fst kv)) (mv_dv (snd kv)).

Lemma put_all : forall l m, ForallOrdPairs (fun a b => key_eq a b = false) (map (fun kv => mv_dv (fst kv)) l) ->
  (forall e kv, In e m -> In kv l -> key_eq (fst e) (mv_dv (fst kv)) = false) ->
  fold_left put_mv l m = m ++ map (fun kv => (mv_dv (fst kv), mv_dv (snd kv))) l.
Proof.
  induction l as [|[a b] l IH]; intros m D X; cbn [fold_left map]; [rewrite app_nil_r; reflexivity|].
  cbn [map] in D. inversion D as [|? ? D1 D2]; subst.
  unfold put_mv at 2; cbn [fst snd]. rewrite map_put_new.
  - rewrite IH, <- app_assoc; [reflexivity|assumption|].
    intros e kv He Hkv. apply in_app_iff in He as [He|[<-|[]]].
    + apply X; [assumption|right; assumption].
    + cbn [fst]. rewrite Forall_forall in D1. apply D1. apply (in_map (fun kv => mv_dv (fst kv))). assumption.
  - apply Forall_forall. intros e He. apply (X e (a, b) He). left; reflexivity.
Qed.

Lemma fold_app : forall l acc, fold_left (fun acc v => acc ++ [mv_dv v]) l acc = acc ++ map mv_dv l.
Proof. induction l; intro acc; cbn [fold_left map]; [rewrite app_nil_r; reflexivity|]. rewrite IHl, <- app_assoc. reflexivity. Qed.

Lemma readArray_reads : forall rd l, (forall x, In x l -> reads rd (mv_bytes x) (mv_dv x)) ->
  reads (readArray rd (len l)) (flat_map mv_bytes l) (DArr (map mv_dv l)).
Proof.
  intros rd l H. unfold readArray. apply reads_bind0 with (a := map mv_dv l); [|apply reads_ret].
  change (map mv_dv l) with ([] ++ map mv_dv l). rewrite <- fold_app.
  apply (times_reads (fun acc => let! v := rd in rret (acc ++ [v])) mv_bytes (fun acc v => acc ++ [mv_dv v])).
  intros x Hx a. apply reads_bind0 with (a := mv_dv x); [apply H, Hx|apply reads_ret].
Qed.

Lemma readMap_reads : forall rd l, keys_ok (map (fun kv => mv_dv (fst kv)) l) ->
  (forall x, In x l -> reads rd (mv_bytes (fst x)) (mv_dv (fst x)) /\ reads rd (mv_bytes (snd x)) (mv_dv (snd x))) ->
  reads (readMap rd (len l)) (flat_map (fun kv => mv_bytes (fst kv) ++ mv_bytes (snd kv)) l)
    (DMap (map (fun kv => (mv_dv (fst kv), mv_dv (snd kv))) l)).
Proof.
  intros rd l [K1 K2] H. unfold readMap.
  apply reads_bind0 with (a := map (fun kv => (mv_dv (fst kv), mv_dv (snd kv))) l); [|apply reads_ret].
  change (map (fun kv => (mv_dv (fst kv), mv_dv (snd kv))) l) with ([] ++ map (fun kv => (mv_dv (fst kv), mv_dv (snd kv))) l).
  rewrite <- put_all; [|assumption|intros e kv []].
  apply (times_reads _ (fun kv : mv * mv => mv_bytes (fst kv) ++ mv_bytes (snd kv)) put_mv).
  intros [a b] Hx m. destruct (H _ Hx) as [H1 H2]. cbn [fst snd] in *.
  eapply reads_bind; [exact H1|]. apply reads_bind0 with (a := mv_dv b); [exact H2|].
  replace (hashable (mv_dv a)) with true; [apply reads_ret|].
  rewrite Forall_forall in K1. specialize (K1 _ (in_map (fun kv => mv_dv (fst kv)) _ _ Hx)). cbn [fst] in K1.
  destruct (mv_dv a); (reflexivity || contradiction).
Qed.

Lemma get_then : forall {A} w v (k : N -> M A) bs a, v < 256 ^ N.of_nat w -> reads (k v) bs a ->
  reads (rbind (get w) k) (be w v ++ bs) a.
Proof. intros. eapply reads_bind; [apply get_be_step; assumption|assumption]. Qed.
Lemma get_then0 : forall {A} w v (k : N -> M A) a, v < 256 ^ N.of_nat w -> reads (k v) [] a ->
  reads (rbind (get w) k) (be w v) a.
Proof. intros. apply reads_bind0 with (a := v); [apply get_be_step; assumption|assumption]. Qed.

Lemma any_int : forall fuel f z, int_range f z -> reads (ReadAny (S fuel)) (int_bytes f z) (mv_dv (MInt f z)).
Proof.
  intros fuel f z R. cbn [ReadAny]. unfold int_bytes.
  destruct f; cbn [int_range] in R; cbn [int_tag int_width app mv_dv].
  - change (256 ^ Z.of_nat 1)%Z with 256%Z. rewrite be1 by lia. apply reads_prefix.
    rewrite isFixedInt_range, isNegativeFixedInt_range by lia.
    replace ((Z.to_N (z mod 256) <? 128) || (224 <=? Z.to_N (z mod 256))) with true by lia.
    replace (to_signed 8 (Z.to_N (z mod 256))) with z; [apply reads_ret|].
    unfold to_signed. change (2 ^ (8-1)) with 128. change (2 ^ Z.of_N 8)%Z with 256%Z.
    destruct (N.ltb_spec (Z.to_N (z mod 256)) 128); lia.
  - change (256 ^ Z.of_nat 1)%Z with 256%Z. rewrite be1 by lia. apply reads_prefix.
    rewrite isFixedInt_range, isNegativeFixedInt_range by lia.
    replace ((Z.to_N (z mod 256) <? 128) || (224 <=? Z.to_N (z mod 256))) with true by lia.
    replace (to_signed 8 (Z.to_N (z mod 256))) with z; [apply reads_ret|].
    unfold to_signed. change (2 ^ (8-1)) with 128. change (2 ^ Z.of_N 8)%Z with 256%Z.
    destruct (N.ltb_spec (Z.to_N (z mod 256)) 128); lia.
  - apply reads_prefix. apply reads_bind0 with (a := z); [apply (get_int_be 1); [lia|]|apply (reads_ret (DI8 z))].
    change (2 ^ (8 * Z.of_nat 1 - 1))%Z with 128%Z. lia.
  - apply reads_prefix. apply reads_bind0 with (a := z); [apply (get_int_be 2); [lia|]|apply (reads_ret (DI16 z))].
    change (8 * Z.of_nat 2 - 1)%Z with 15%Z. lia.
  - apply reads_prefix. apply reads_bind0 with (a := z); [apply (get_int_be 4); [lia|]|apply (reads_ret (DI32 z))].
    change (8 * Z.of_nat 4 - 1)%Z with 31%Z. lia.
  - apply reads_prefix. apply reads_bind0 with (a := z); [apply (get_int_be 8); [lia|]|apply (reads_ret (DI64 z))].
    change (8 * Z.of_nat 8 - 1)%Z with 63%Z. lia.
  - apply reads_prefix. change (256 ^ Z.of_nat 1)%Z with 256%Z. pow_c. rewrite Z.mod_small by lia.
    apply (get_then0 1); [change (256 ^ N.of_nat 1) with 256; lia|apply (reads_ret (DU8 (Z.to_N z)))].
  - apply reads_prefix. change (256 ^ Z.of_nat 2)%Z with 65536%Z. pow_c. rewrite Z.mod_small by lia.
    apply (get_then0 2); [change (256 ^ N.of_nat 2) with 65536; lia|apply (reads_ret (DU16 (Z.to_N z)))].
  - apply reads_prefix. change (256 ^ Z.of_nat 4)%Z with 4294967296%Z. pow_c. rewrite Z.mod_small by lia.
    apply (get_then0 4); [change (256 ^ N.of_nat 4) with 4294967296; lia|apply (reads_ret (DU32 (Z.to_N z)))].
  - apply reads_prefix. change (256 ^ Z.of_nat 8)%Z with 18446744073709551616%Z. pow_c. rewrite Z.mod_small by lia.
    apply (get_then0 8); [change (256 ^ N.of_nat 8) with 18446744073709551616; lia|apply (reads_ret (DU64 (Z.to_N z)))].
Qed.

Lemma bytes_then : forall s n (c : bytes -> dv), n = len s -> reads (let! x := get_bytes n in rret (c x)) s (c s).
Proof. intros. apply reads_bind0 with (a := s); [apply get_bytes_step; assumption|apply reads_ret]. Qed.

Lemma any_tree : forall v, mv_ok v -> readable v -> forall fuel, (mv_depth v <= fuel)%nat ->
  reads (ReadAny fuel) (mv_bytes v) (mv_dv v).
Proof.
  induction v as [|b|f z|b|b|f s|f s|f l IH|f l IH|f i d] using mv_rec'; intros O S fuel F;
    (destruct fuel as [|fuel]; [cbn [mv_depth] in F; lia|]); cbn [mv_ok readable mv_depth] in *; try contradiction.
  - apply reads_prefix. apply (reads_ret DNil).
  - apply reads_prefix. destruct b; [apply (reads_ret (DBool true))|apply (reads_ret (DBool false))].
  - apply any_int; assumption.
  - cbn [mv_bytes]. apply reads_prefix. apply (get_then0 4); [exact O|apply (reads_ret (DF32 b))].
  - cbn [mv_bytes]. apply reads_prefix. apply (get_then0 8); [exact O|apply (reads_ret (DF64 b))].
  - destruct O as [L _]. cbn [mv_bytes mv_dv ReadAny].
    destruct f; cbn [len_limit] in L; cbn [str_head app]; apply reads_prefix.
    + rewrite isFixedInt_range, isNegativeFixedInt_range, isFixedString_range by lia.
      replace ((160 + len s <? 128) || (224 <=? 160 + len s)) with false by lia.
      replace ((160 <=? 160 + len s) && (160 + len s <? 192)) with true by lia.
      rewrite land_1f. apply bytes_then. lia.
    + apply (get_then 1); [exact L|apply bytes_then; reflexivity].
    + apply (get_then 2); [exact L|apply bytes_then; reflexivity].
    + apply (get_then 4); [exact L|apply bytes_then; reflexivity].
  - destruct O as (D & L & _). cbn [mv_bytes mv_dv ReadAny].
    destruct f; [congruence|..]; cbn [len_limit] in L; cbn [bin_head app]; apply reads_prefix.
    + apply (get_then 1); [exact L|apply bytes_then; reflexivity].
    + apply (get_then 2); [exact L|apply bytes_then; reflexivity].
    + apply (get_then 4); [exact L|apply bytes_then; reflexivity].
  - destruct O as (D & L & O). rewrite all_Forall in O, S. cbn [mv_bytes mv_dv ReadAny].
    assert (X : reads (readArray (ReadAny fuel) (len l)) (flat_map mv_bytes l) (DArr (map mv_dv l))).
    { apply readArray_reads. intros x Hx. rewrite Forall_forall in *. apply IH; auto.
      pose proof (max_list_le (map mv_depth l) (mv_depth x) (in_map _ _ _ Hx)). lia. }
    destruct f; [|congruence|..]; cbn [len_limit] in L; cbn [arr_head app]; apply reads_prefix.
    + rewrite isFixedInt_range, isNegativeFixedInt_range, isFixedString_range, isFixedArray_range by lia.
      replace ((144 + len l <? 128) || (224 <=? 144 + len l)) with false by lia.
      replace ((160 <=? 144 + len l) && (144 + len l <? 192)) with false by lia.
      replace ((144 <=? 144 + len l) && (144 + len l <? 160)) with true by lia.
      rewrite land_0f. replace ((144 + len l) mod 16) with (len l) by lia. exact X.
    + apply (get_then 2); [exact L|exact X].
    + apply (get_then 4); [exact L|exact X].
  - destruct O as (D & L & O). destruct S as [K S]. rewrite all_Forall in O, S. cbn [mv_bytes mv_dv ReadAny].
    assert (X : reads (readMap (ReadAny fuel) (len l)) (flat_map (fun kv => mv_bytes (fst kv) ++ mv_bytes (snd kv)) l)
      (DMap (map (fun kv => (mv_dv (fst kv), mv_dv (snd kv))) l))).
    { apply readMap_reads; [assumption|]. intros [a b] Hx. rewrite Forall_forall in *.
      specialize (IH _ Hx). specialize (O _ Hx). specialize (S _ Hx). cbn [fst snd] in *.
      pose proof (max_list_le (map (fun kv => Nat.max (mv_depth (fst kv)) (mv_depth (snd kv))) l) _
        (in_map (fun kv => Nat.max (mv_depth (fst kv)) (mv_depth (snd kv))) _ _ Hx)) as Y. cbn [fst snd] in Y.
      split; apply IH; try tauto; lia. }
    destruct f; [|congruence|..]; cbn [len_limit] in L; cbn [map_head app]; apply reads_prefix.
    + rewrite isFixedInt_range, isNegativeFixedInt_range, isFixedString_range, isFixedArray_range, isFixedMap_range by lia.
      replace ((128 + len l <? 128) || (224 <=? 128 + len l)) with false by lia.
      replace ((160 <=? 128 + len l) && (128 + len l <? 192)) with false by lia.
      replace ((144 <=? 128 + len l) && (128 + len l <? 160)) with false by lia.
      replace ((128 <=? 128 + len l) && (128 + len l <? 144)) with true by lia.
      rewrite land_0f. replace ((128 + len l) mod 16) with (len l) by lia. exact X.
    + apply (get_then 2); [exact L|exact X].
    + apply (get_then 4); [exact L|exact X].
Qed.

(** ** WriteAny, then ReadAny *)
Fixpoint gov_mv (v : gov) : mv :=
  let F n := short_len 16 false n in
  match v with
  | GVal s => scal_mv s
  | GSlice l => MArr (F (len l)) (map gov_mv l)
  | GTSlice _ l => MArr (F (len l)) (map scal_mv l)
  | GMapSS l => MMap (F (len l)) (map (fun kv => (scal_mv (SStr (fst kv)), scal_mv (SStr (snd kv)))) l)
  | GTMap _ l => MMap (F (len l)) (map (fun kv => (scal_mv (fst kv), gov_mv (snd kv))) l)
  | GMapAny l => MMap (F (len l)) (map (fun kv => (gov_mv (fst kv), gov_mv (snd kv))) l)
  | _ => MNil
  end.

Lemma flat_map_ext_in : forall {A B C} (f : B -> list C) (h : A -> B) (g : A -> list C) l,
  (forall x, In x l -> g x = f (h x)) -> flat_map g l = flat_map f (map h l).
Proof.
  induction l; intro H; cbn [flat_map map]; [reflexivity|]. rewrite IHl, (H a); [reflexivity|left; reflexivity|].
  intros x Hx. apply H. right; assumption.
Qed.
Lemma len_map : forall {A B} (f : A -> B) l, len (map f l) = len l.
Proof. intros. unfold len. rewrite map_length. reflexivity. Qed.

Lemma gov_mv_bytes : forall v, clean v -> mv_bytes (gov_mv v) = any_bytes v.
Proof.
  induction v as [|s|l IH|k l|l|k l IH|l IH|l IH|] using gov_rec'; intro C; cbn [clean gov_mv any_bytes mv_bytes] in *; try contradiction.
  - destruct s; (reflexivity || contradiction).
  - rewrite len_map. f_equal. symmetry. apply flat_map_ext_in. intros x Hx. symmetry.
    rewrite all_Forall, Forall_forall in C. rewrite Forall_forall in IH. auto.
  - rewrite C, len_map. f_equal. symmetry. apply flat_map_ext_in. reflexivity.
  - rewrite len_map. f_equal. symmetry. apply flat_map_ext_in. reflexivity.
  - destruct C as (K & _ & C). rewrite K, len_map. f_equal. symmetry. apply flat_map_ext_in. intros x Hx. cbn [fst snd].
    rewrite all_Forall, Forall_forall in C. rewrite Forall_forall in IH. rewrite (IH x Hx (C x Hx)). reflexivity.
  - rewrite len_map. f_equal. symmetry. apply flat_map_ext_in. intros x Hx. cbn [fst snd].
    destruct C as (CK & _ & C). rewrite all_Forall in C. rewrite Forall_forall in C, CK.
    rewrite Forall_forall in IH. destruct (IH x Hx) as [I1 I2].
    pose proof (C x Hx) as C2. assert (C1 : clean (fst x)).
    { specialize (CK x Hx). clear - CK. destruct (fst x) as [|s| | | | | | |]; try (destruct (CK eq_refl)).
      destruct s; try (destruct (CK eq_refl)); exact I. }
    rewrite I1, I2 by assumption. reflexivity.
Qed.

Lemma scal_mv_ok : forall s, scal_ok s -> mv_ok (scal_mv s).
Proof.
  intros s H. destruct s; cbn [scal_ok scal_mv mv_ok] in *; try exact I;
    try (apply short_signed_range; pow_c; lia); try (apply short_unsigned_range; pow_n; lia); try assumption.
  - destruct H. split; [apply short_len_limit|]; assumption.
  - split; [reflexivity|]. split.
    + unfold time_data. repeat match goal with |- context [if ?b then _ else _] => destruct b end;
      rewrite ?wf_app; repeat split; apply be_wf.
    + destruct (time_data_len t) as [E|[E|E]]; rewrite E; cbn; tauto || lia.
  - destruct H. split; [apply short_len_not_tag|]. split; [apply short_len_limit|]; assumption.
Qed.

Lemma gov_mv_ok : forall v, any_ok v -> mv_ok (gov_mv v).
Proof.
  induction v as [|s|l IH|k l|l|k l IH|l IH|l IH|] using gov_rec'; intro C; cbn [any_ok gov_mv mv_ok] in *; try exact I.
  - apply scal_mv_ok, C.
  - destruct C as [L C]. repeat rewrite all_Forall in *. rewrite len_map. split; [apply short_len_not8|].
    split; [apply short_len_limit; assumption|]. rewrite Forall_map. rewrite Forall_forall in *. auto.
  - destruct C as [L C]. repeat rewrite all_Forall in *. rewrite len_map. split; [apply short_len_not8|].
    split; [apply short_len_limit; assumption|]. rewrite Forall_map. rewrite Forall_forall in *.
    intros x Hx. apply scal_mv_ok. apply C, Hx.
  - destruct C as [L C]. repeat rewrite all_Forall in *. rewrite len_map. split; [apply short_len_not8|].
    split; [apply short_len_limit; assumption|]. rewrite Forall_map. rewrite Forall_forall in *.
    intros x Hx. cbn [fst snd]. split; apply (scal_mv_ok (SStr _)); apply C, Hx.
  - destruct C as [L C]. repeat rewrite all_Forall in *. rewrite len_map. split; [apply short_len_not8|].
    split; [apply short_len_limit; assumption|]. rewrite Forall_map. rewrite Forall_forall in *.
    intros x Hx. cbn [fst snd]. split; [apply scal_mv_ok; apply C, Hx|]. apply IH; [assumption|]. apply C, Hx.
  - destruct C as [L C]. repeat rewrite all_Forall in *. rewrite len_map. split; [apply short_len_not8|].
    split; [apply short_len_limit; assumption|]. rewrite Forall_map. rewrite Forall_forall in *.
    intros x Hx. cbn [fst snd]. split; apply IH; try assumption; apply C, Hx.
Qed.

(** Keys of typed maps stay different. *)
Lemma signed_dv : forall z, dv_int (mv_dv (MInt (short_signed z) z)) = Some z.
Proof. intro z. unfold short_signed. cbn [mv_dv]. repeat match goal with |- context [if ?b then _ else _] => destruct b end; reflexivity. Qed.
Lemma unsigned_dv : forall n, dv_int (mv_dv (MInt (short_unsigned n) (Z.of_N n))) = Some (Z.of_N n).
Proof.
  intro n. unfold short_unsigned. cbn [mv_dv].
  repeat match goal with |- context [if ?b then _ else _] => destruct b end; cbn [dv_int]; rewrite ?to_N_of_N; reflexivity.
Qed.
Lemma key_eq_int : forall a b x y, dv_int a = Some x -> dv_int b = Some y -> key_eq a b = true -> x = y.
Proof.
  intros a b x y Ha Hb H. destruct a; try discriminate Ha; destruct b; try discriminate Hb; try discriminate H;
  cbn [dv_int key_eq] in *; injection Ha as <-; injection Hb as <-; lia.
Qed.
Lemma scal_dv_equal : forall s, (forall t, s <> STime t) -> scal_equal s (mv_dv (scal_mv s)).
Proof.
  intros s H. destruct s; cbn [scal_equal scal_mv];
  try apply signed_dv; try apply unsigned_dv; try reflexivity. destruct (H t eq_refl).
Qed.
Lemma key_eq_scal : forall s s', map_key (kind_of s) = true -> kind_of s = kind_of s' ->
  key_eq (mv_dv (scal_mv s)) (mv_dv (scal_mv s')) = true -> s = s'.
Proof.
  intros s s' K E H.
  destruct s; try discriminate K; destruct s'; try discriminate E; cbn [scal_mv] in H;
  try (f_equal; eapply key_eq_int; [apply signed_dv|apply signed_dv|exact H]);
  try (f_equal; apply N2Z.inj; eapply key_eq_int; [apply unsigned_dv|apply unsigned_dv|exact H]).
  cbn [mv_dv key_eq] in H. destruct (list_eq_dec N.eq_dec s s0); [congruence|discriminate].
Qed.

Lemma keys_hash : forall s, map_key (kind_of s) = true ->
  match mv_dv (scal_mv s) with DBytes _ | DArr _ | DMap _ => False | _ => True end.
Proof.
  intros s K. destruct s; try discriminate K; cbn [scal_mv].
  all: try (pose proof (signed_dv z) as X; destruct (mv_dv (MInt (short_signed z) z)); try exact I; discriminate X).
  all: try (pose proof (unsigned_dv n) as X; destruct (mv_dv (MInt (short_unsigned n) (Z.of_N n))); try exact I; discriminate X).
  exact I.
Qed.

Lemma pairs_distinct : forall {A} (h : A -> dv) l, NoDup l ->
  (forall a b, In a l -> In b l -> key_eq (h a) (h b) = true -> a = b) ->
  ForallOrdPairs (fun a b => key_eq a b = false) (map h l).
Proof.
  intros A h l H X; induction H as [|x l Hx Hl IH]; cbn [map]; constructor.
  - rewrite Forall_map, Forall_forall. intros y Hy. destruct (key_eq (h x) (h y)) eqn:E; [|reflexivity].
    destruct Hx. rewrite (X x y); [assumption|left; reflexivity|right; assumption|assumption].
  - apply IH. intros a b Ha Hb. apply X; right; assumption.
Qed.

Lemma key_clean : forall v, key_val v <> None -> clean v /\ readable (gov_mv v).
Proof. intros v H. destruct v as [|s| | | | | | |]; try (destruct (H eq_refl)). destruct s; try (destruct (H eq_refl)); split; exact I. Qed.

Lemma key_val_dv : forall v k, key_val v = Some k ->
  match k with
  | KeyBool b => mv_dv (gov_mv v) = DBool b
  | KeyInt z => dv_int (mv_dv (gov_mv v)) = Some z
  | KeyStr s => mv_dv (gov_mv v) = DStr s
  end.
Proof.
  intros v k H. destruct v as [|s| | | | | | |]; try discriminate H.
  destruct s; try discriminate H; cbn [key_val] in H; injection H as <-; cbn [gov_mv scal_mv]; try apply signed_dv;
  try apply unsigned_dv; reflexivity.
Qed.
Lemma key_val_eq : forall v v' k k', key_val v = Some k -> key_val v' = Some k' ->
  key_eq (mv_dv (gov_mv v)) (mv_dv (gov_mv v')) = true -> k = k'.
Proof.
  intros v v' k k' H H' E. apply key_val_dv in H, H'. destruct k as [b|z|s], k' as [b'|z'|s'].
  - rewrite H, H' in E. cbn in E. f_equal. apply Bool.eqb_prop; assumption.
  - rewrite H in E. destruct (mv_dv (gov_mv v')); discriminate.
  - rewrite H, H' in E. discriminate.
  - rewrite H' in E. destruct (mv_dv (gov_mv v)); discriminate.
  - f_equal. eapply key_eq_int; eassumption.
  - rewrite H' in E. destruct (mv_dv (gov_mv v)); discriminate.
  - rewrite H, H' in E. discriminate.
  - rewrite H in E. destruct (mv_dv (gov_mv v')); discriminate.
  - rewrite H, H' in E. cbn [key_eq] in E. destruct (list_eq_dec N.eq_dec s s'); [congruence|discriminate].
Qed.
Lemma key_val_hash : forall v, key_val v <> None ->
  match mv_dv (gov_mv v) with DBytes _ | DArr _ | DMap _ => False | _ => True end.
Proof.
  intros v H. destruct (key_val v) as [k|] eqn:E; [|congruence]. apply key_val_dv in E.
  destruct k; [rewrite E; exact I| |rewrite E; exact I]. destruct (mv_dv (gov_mv v)); try exact I; discriminate.
Qed.

Lemma gov_readable : forall v, any_ok v -> clean v -> readable (gov_mv v).
Proof.
  induction v as [|s|l IH|k l|l|k l IH|l IH|l IH|] using gov_rec'; intros O C; cbn [clean gov_mv readable any_ok] in *; try contradiction.
  - destruct s; try exact I. contradiction.
  - destruct O as [_ O]. repeat rewrite all_Forall in *. rewrite Forall_map. rewrite Forall_forall in *. intros x Hx. apply IH; auto.
  - destruct O as [_ O]. repeat rewrite all_Forall in *. rewrite Forall_map. rewrite Forall_forall in *. intros x Hx.
    destruct (O x Hx) as [_ E]. subst k. destruct x; try discriminate C; exact I.
  - rewrite map_map. cbn [fst]. split.
    + split.
      * rewrite Forall_map. apply Forall_forall. intros x _. exact I.
      * rewrite <- (map_map fst (fun s => mv_dv (scal_mv (SStr s)))). apply pairs_distinct; [assumption|].
        intros a b _ _ E. apply (key_eq_scal (SStr a) (SStr b)) in E; try reflexivity. congruence.
    + rewrite all_Forall, Forall_map. apply Forall_forall. intros x _. split; exact I.
  - destruct C as (MK & ND & C). destruct O as [_ O]. rewrite all_Forall in O, C. rewrite Forall_forall in O, C, IH.
    rewrite map_map. cbn [fst]. split.
    + split.
      * rewrite Forall_map. apply Forall_forall. intros x Hx. apply keys_hash. destruct (O x Hx) as [[_ ->] _]. exact MK.
      * rewrite <- (map_map fst (fun s => mv_dv (scal_mv s))). apply pairs_distinct; [assumption|].
        intros a b Ha Hb E. apply in_map_iff in Ha as (x & <- & Hx). apply in_map_iff in Hb as (y & <- & Hy).
        destruct (O x Hx) as [[_ Ex] _]. destruct (O y Hy) as [[_ Ey] _].
        apply key_eq_scal in E; [assumption|congruence|congruence].
    + rewrite all_Forall, Forall_map. apply Forall_forall. intros x Hx. cbn [fst snd]. split.
      * destruct (O x Hx) as [[_ Ex] _]. destruct (fst x); try exact I. cbn in Ex. subst k. discriminate MK.
      * apply IH; auto. apply (O x Hx).
  - destruct C as (CK & ND & C). destruct O as [_ O]. rewrite all_Forall in O, C. rewrite Forall_forall in O, C, IH, CK.
    rewrite map_map. cbn [fst]. split.
    + split.
      * rewrite Forall_map. apply Forall_forall. intros x Hx. apply key_val_hash, CK, Hx.
      * clear IH C O. induction l as [|x l IHl]; cbn [map]; constructor.
        -- rewrite Forall_map, Forall_forall. intros y Hy.
           destruct (key_eq (mv_dv (gov_mv (fst x))) (mv_dv (gov_mv (fst y)))) eqn:E; [|reflexivity].
           cbn [map] in ND. inversion ND as [|? ? N1 N2]; subst. destruct N1.
           pose proof (CK x (or_introl eq_refl)) as Kx. pose proof (CK y (or_intror Hy)) as Ky.
           destruct (key_val (fst x)) as [kx|] eqn:Ex; [|congruence]. destruct (key_val (fst y)) as [ky|] eqn:Ey; [|congruence].
           rewrite (key_val_eq _ _ _ _ Ex Ey E), <- Ey. apply (in_map (fun kv => key_val (fst kv))). assumption.
        -- apply IHl; [intros y Hy; apply CK; right; assumption|]. cbn [map] in ND. inversion ND; assumption.
    + rewrite all_Forall, Forall_map. apply Forall_forall. intros x Hx. cbn [fst snd].
      split; [apply key_clean, CK, Hx|]. apply (IH x Hx); [apply (O x Hx)|apply (C x Hx)].
Qed.

Lemma all2_map : forall {A B} (R : A -> B -> Prop) (h : A -> B) l, (forall x, In x l -> R x (h x)) -> all2 R l (map h l).
Proof.
  induction l; intro H; cbn [all2 map]; [exact I|]. split; [apply H; left; reflexivity|]. apply IHl. intros x Hx. apply H. right; assumption.
Qed.

Lemma gov_equal : forall v, any_ok v -> clean v -> any_equal v (mv_dv (gov_mv v)).
Proof.
  induction v as [|s|l IH|k l|l|k l IH|l IH|l IH|] using gov_rec'; intros O C; cbn [clean gov_mv mv_dv any_equal any_ok] in *; try contradiction.
  - apply scal_dv_equal. intros t ->. exact C.
  - destruct O as [_ O]. repeat rewrite all_Forall in *. rewrite Forall_forall in *. rewrite map_map. apply all2_map. auto.
  - destruct O as [_ O]. repeat rewrite all_Forall in *. rewrite Forall_forall in *. rewrite map_map. apply all2_map.
    intros x Hx. apply scal_dv_equal. destruct (O x Hx) as [_ E]. intros t ->. cbn in E. subst k. discriminate C.
  - rewrite map_map. apply all2_map. intros x Hx. split; reflexivity.
  - destruct C as (MK & _ & C). destruct O as [_ O]. repeat rewrite all_Forall in *. rewrite Forall_forall in *. rewrite map_map. apply all2_map.
    intros x Hx. cbn [fst snd]. split.
    + apply scal_dv_equal. destruct (O x Hx) as [[_ E] _]. intros t Et. rewrite Et in E. cbn in E. subst k. discriminate MK.
    + apply IH; auto. apply (O x Hx).
  - destruct C as (CK & _ & C). destruct O as [_ O]. rewrite all_Forall in O, C. rewrite Forall_forall in *. rewrite map_map.
    apply all2_map. intros x Hx. cbn [fst snd]. destruct (IH x Hx) as [I1 I2]. destruct (O x Hx) as [O1 O2]. split; [|auto].
    apply I1; [assumption|]. apply key_clean, CK, Hx.
Qed.
