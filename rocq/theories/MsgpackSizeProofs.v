(** The sizing pass against the encoding pass. *)
From Coq Require Import List NArith ZArith Lia Bool ZifyBool ZifyNat ZifyN Permutation.
From Verif Require Import Base BaseLemmas OperationsModel MsgpackModel MsgpackSpec MsgpackIOProofs MsgpackProofs MsgpackReadProofs.
Import ListNotations.
Open Scope N_scope.
Ltac Zify.zify_post_hook ::= Z.div_mod_to_equations.

Lemma all_Forall : forall {A} (P : A -> Prop) l, all P l <-> Forall P l.
Proof.
  intros A P l; induction l; cbn [all]; [split; [constructor|exact (fun _ => I)]|].
  rewrite Forall_cons_iff, IHl. reflexivity.
Qed.

(** Induction over dynamic values. *)
Lemma gov_rec' : forall P : gov -> Prop,
  P GNil -> (forall s, P (GVal s)) -> (forall l, Forall P l -> P (GSlice l)) -> (forall k l, P (GTSlice k l)) ->
  (forall l, P (GMapSS l)) -> (forall k l, Forall (fun kv => P (snd kv)) l -> P (GTMap k l)) ->
  (forall l, Forall (fun kv => P (fst kv) /\ P (snd kv)) l -> P (GMapAny l)) ->
  (forall l, Forall (fun c => match c with inl _ => True | inr v => P v end) l -> P (GCodec l)) ->
  P GOther -> forall v, P v.
Proof.
  intros P H1 H2 H3 H4 H5 H6 H7 H8 H9. fix IH 1. intros [|s|l|k l|l|k l|l|l|].
  - exact H1.
  - apply H2.
  - apply H3. induction l; constructor; [apply IH|assumption].
  - apply H4.
  - apply H5.
  - apply H6. induction l as [|[a b] l]; constructor; [apply IH|assumption].
  - apply H7. induction l as [|[a b] l]; constructor; [split; apply IH|assumption].
  - apply H8. induction l as [|[a|b] l]; constructor; [exact I|assumption|apply IH|assumption].
  - exact H9.
Qed.

Lemma writes_each : forall {A} (f : A -> W) (g : A -> bytes) l, Forall (fun x => writes (f x) (g x)) l ->
  writes (w_each f l) (flat_map g l).
Proof.
  intros A f g l H; induction H as [|x l Hx Hl IH]; cbn [w_each flat_map]; [apply writes_skip|].
  apply writes_seq; assumption.
Qed.

Lemma enc_slice_kind_spec : forall k, enc_slice_kind k = slice_elem k.
Proof. destruct k; reflexivity. Qed.
Lemma map_kind_spec : forall k, map_kind k = map_key k.
Proof. destruct k; reflexivity. Qed.

Lemma prim_writes : forall p, prim_ok p -> writes (enc_prim p) (prim_bytes p).
Proof.
  intros [|s|[s|]|n|n] H; cbn [enc_prim prim_bytes prim_ok] in *.
  - apply (set_uint_writes 1 0xc0).
  - apply scal_writes, H.
  - apply scal_writes, H.
  - apply (set_uint_writes 1 0xc0).
  - apply arr_len_writes, H.
  - apply map_len_writes, H.
Qed.

Lemma any_writes : forall v, any_ok v -> writes (enc_any v) (any_bytes v).
Proof.
  induction v as [|s|l IH|k l|l|k l IH|l IH|l IH|] using gov_rec'; intro H; cbn [enc_any any_bytes any_ok] in *;
    try rewrite all_Forall in H.
  - apply writes_seq; apply (set_uint_writes 1 0xc0).
  - destruct s; try (apply scal_writes; exact H). apply writes_skip.
  - destruct H as [L H]. rewrite u32_small by assumption. apply writes_seq; [apply arr_len_writes; assumption|].
    apply writes_each. rewrite Forall_forall in *. intros x Hx. apply IH; auto.
  - destruct H as [L H]. rewrite enc_slice_kind_spec. destruct (slice_elem k); [|apply writes_skip].
    rewrite u32_small by assumption. apply writes_seq; [apply arr_len_writes; assumption|].
    apply writes_each. rewrite Forall_forall in *. intros x Hx. apply scal_writes. apply H, Hx.
  - destruct H as [L H]. rewrite u32_small by assumption. apply writes_seq; [apply map_len_writes; assumption|].
    apply (writes_each (fun kv => wseq (WriteString (fst kv)) (WriteString (snd kv)))).
    rewrite Forall_forall in *. intros x Hx. apply writes_seq; apply (scal_writes (SStr _)); apply H, Hx.
  - destruct H as [L H]. rewrite map_kind_spec. destruct (map_key k); [|apply writes_skip].
    rewrite u32_small by assumption. apply writes_seq; [apply map_len_writes; assumption|].
    apply (writes_each (fun kv => wseq (enc_scal (fst kv)) (enc_any (snd kv)))).
    rewrite Forall_forall in *. intros x Hx. apply writes_seq; [apply scal_writes; apply H, Hx|].
    apply IH; [assumption|]. apply H, Hx.
  - destruct H as [L H]. rewrite u32_small by assumption. apply writes_seq; [apply map_len_writes; assumption|].
    apply (writes_each (fun kv => wseq (enc_any (fst kv)) (enc_any (snd kv)))).
    rewrite Forall_forall in *. intros x Hx. apply writes_seq; apply IH; try assumption; apply H, Hx.
  - apply writes_each. rewrite Forall_forall in *. intros x Hx. specialize (IH x Hx). specialize (H x Hx).
    destruct x as [p|v]; [apply prim_writes, H|apply IH, H].
  - apply writes_skip.
Qed.

Lemma calls_writes : forall l, calls_ok l -> writes (enc_calls l) (calls_bytes l).
Proof. intros l H. apply (any_writes (GCodec l) H). Qed.

(** ** Sizer *)
Definition sizes (f : S_) (k : N) : Prop := forall n, n < 2^32 -> f n = u32 (n + k).

Lemma u32_add : forall a b, u32 (u32 a + b) = u32 (a + b).
Proof. intros. unfold u32. rewrite N.add_mod_idemp_l by discriminate. reflexivity. Qed.
Lemma u32_lt : forall a, u32 a < 2^32.
Proof. intro. apply N.mod_lt. discriminate. Qed.

Lemma sizes_add : forall k, sizes (add32 k) k.
Proof. intros k n H. reflexivity. Qed.
Lemma sizes_add_u : forall k, sizes (add32 (u32 k)) k.
Proof. intros k n H. unfold add32. rewrite N.add_comm, u32_add, N.add_comm. reflexivity. Qed.
Lemma sizes_skip : sizes sskip 0.
Proof. intros n H. unfold sskip. rewrite N.add_0_r, u32_small by assumption. reflexivity. Qed.
Lemma sizes_seq : forall f g a b, sizes f a -> sizes g b -> sizes (sseq f g) (a + b).
Proof.
  intros f g a b Hf Hg n H. unfold sseq. rewrite Hf by assumption. rewrite Hg by apply u32_lt.
  rewrite u32_add. f_equal. lia.
Qed.
Lemma sizes_eq : forall f a b, sizes f a -> a = b -> sizes f b.
Proof. intros; subst; assumption. Qed.

Ltac ncases := repeat match goal with |- context [N.ltb ?a ?b] => destruct (N.ltb_spec a b)
                                    | |- context [N.leb ?a ?b] => destruct (N.leb_spec a b) end; try lia.

Lemma int_bytes_len : forall f z, len (int_bytes f z) = len (int_tag f) + N.of_nat (int_width f).
Proof. intros. unfold int_bytes. rewrite len_app, be_len. reflexivity. Qed.

Lemma size_int : forall z, sizes (SizeInt64 z) (len (int_bytes (short_signed z) z)).
Proof.
  intros z. rewrite int_bytes_len. unfold SizeInt64, short_signed. change (-(2^5))%Z with (-32)%Z. pow_c.
  change (-(128))%Z with (-128)%Z. change (-(32768))%Z with (-32768)%Z. change (-(2147483648))%Z with (-2147483648)%Z.
  destruct ((-32 <=? z)%Z && (z <? 128)%Z) eqn:E1.
  { zcases; try lia; apply sizes_add. }
  destruct ((z <? 128)%Z && (-128 <=? z)%Z) eqn:E2.
  { zcases; try lia; apply sizes_add. }
  destruct ((z <? 32768)%Z && (-32768 <=? z)%Z) eqn:E3.
  { zcases; try lia; apply sizes_add. }
  destruct ((z <? 2147483648)%Z && (-2147483648 <=? z)%Z) eqn:E4.
  { zcases; try lia; apply sizes_add. }
  zcases; try lia; apply sizes_add.
Qed.
Lemma size_uint : forall n, sizes (SizeUint64 n) (len (int_bytes (short_unsigned n) (Z.of_N n))).
Proof.
  intros n. rewrite int_bytes_len. unfold SizeUint64, short_unsigned. change (2^7) with 128.
  destruct (n <? 128); [apply sizes_add|]. destruct (n <? 2^8); [apply sizes_add|].
  destruct (n <? 2^16); [apply sizes_add|]. destruct (n <? 2^32); apply sizes_add.
Qed.

Lemma size_str : forall s, len s < 2^32 -> sizes (SizeString s) (len (mv_bytes (scal_mv (SStr s)))).
Proof.
  intros s H. unfold SizeString. rewrite u32_small by assumption. cbn [scal_mv mv_bytes]. rewrite len_app.
  apply sizes_seq; [|apply sizes_add]. unfold sizeStringLength, short_len. cbn [andb]. pow_n.
  ncases; cbn [str_head]; apply sizes_add.
Qed.

Lemma size_bytes : forall s, len s < 2^32 ->
  sizes (SizeByteArray s) (len (mv_bytes (scal_mv (SBytes s))) + scal_excess (SBytes s)).
Proof.
  intros s H. unfold SizeByteArray. rewrite u32_small by assumption. cbn [scal_mv mv_bytes scal_excess]. rewrite len_app.
  destruct (N.eqb_spec (len s) 0) as [E|E].
  { apply len_0 in E. subst s. apply (sizes_add 2). }
  unfold sizeBinLength, short_len. cbn [andb]. pow_n.
  eapply sizes_eq; [apply sizes_seq; [|apply sizes_add_u]|].
  - instantiate (1 := if len s <? 255 then 1 else if len s <=? 65535 then 2 else 4). ncases; apply sizes_add.
  - destruct (N.eqb_spec (len s) 255) as [->|]; [reflexivity|].
    ncases; cbn [bin_head]; rewrite len_cons, be_len; lia.
Qed.

Lemma size_arr : forall n, sizes (SizeHeader n) (len (arr_head (short_len 16 false n) n)).
Proof.
  intros n. unfold SizeHeader, short_len. cbn [andb]. pow_n.
  ncases; cbn [arr_head]; apply sizes_add.
Qed.
Lemma size_map : forall n, sizes (SizeHeader n) (len (map_head (short_len 16 false n) n)).
Proof.
  intros n. unfold SizeHeader, short_len. cbn [andb]. pow_n.
  ncases; cbn [map_head]; apply sizes_add.
Qed.

Lemma sizeTime_spec : forall t, time_ok t -> sizeTime t = len (time_data t).
Proof.
  intros t H. rewrite <- encodeTime_spec by assumption. unfold sizeTime, encodeTime.
  destruct (_ =? 0); [destruct (_ =? 0)|]; rewrite ?len_app, !be_len; reflexivity.
Qed.

Lemma size_time : forall t, time_ok t -> sizes (SizeTime t) (len (mv_bytes (scal_mv (STime t)))).
Proof.
  intros t H. unfold SizeTime. rewrite sizeTime_spec by assumption. cbn [scal_mv mv_bytes]. rewrite len_app.
  apply sizes_seq.
  - destruct (time_data_len t) as [E|[E|E]]; rewrite E; apply sizes_add.
  - rewrite len_app. change (len [255]) with 1. apply sizes_add_u.
Qed.

Lemma size_scal : forall s, scal_ok s -> sizes (siz_scal s) (len (mv_bytes (scal_mv s)) + scal_excess s).
Proof.
  intros s H. destruct s; try (apply size_bytes; apply H); cbn [siz_scal scal_excess]; rewrite ?N.add_0_r;
    try apply size_int; try apply size_uint.
  - apply sizes_add.
  - apply sizes_add.
  - apply sizes_add.
  - apply size_str. apply H.
  - apply size_time. exact H.
Qed.

Lemma size_prim : forall p, prim_ok p -> sizes (siz_prim p) (len (prim_bytes p) + prim_excess p).
Proof.
  intros [|s|[s|]|n|n] H; cbn [siz_prim prim_bytes prim_excess prim_ok] in *.
  - apply sizes_add.
  - apply size_scal, H.
  - apply size_scal, H.
  - apply sizes_add.
  - rewrite N.add_0_r. apply size_arr.
  - rewrite N.add_0_r. apply size_map.
Qed.

Lemma sizes_each : forall {A} (f : A -> S_) (g : A -> N) l, Forall (fun x => sizes (f x) (g x)) l ->
  sizes (s_each f l) (sum (map g l)).
Proof.
  intros A f g l H; induction H as [|x l Hx Hl IH]; cbn [s_each map sum fold_right]; [apply sizes_skip|].
  apply sizes_seq; assumption.
Qed.
Lemma sum_split : forall {A} (g : A -> bytes) (h : A -> N) l,
  sum (map (fun x => len (g x) + h x) l) = len (flat_map g l) + sum (map h l).
Proof.
  intros A g h l; induction l; cbn [map sum fold_right flat_map]; [reflexivity|].
  unfold sum in IHl. rewrite IHl, len_app. unfold sum. lia.
Qed.

Lemma sum_zero : forall {A} (h : A -> N) l, Forall (fun x => h x = 0) l -> sum (map h l) = 0.
Proof. intros A h l H; induction H; cbn; [reflexivity|]. unfold sum in IHForall. rewrite H, IHForall. reflexivity. Qed.

Lemma sum_ext : forall {A} (g h : A -> N) l, Forall (fun x => g x = h x) l -> sum (map g l) = sum (map h l).
Proof. intros A g h l H; induction H; cbn; [reflexivity|]. unfold sum in IHForall. rewrite H, IHForall. reflexivity. Qed.

(** A header followed by elements. *)
Lemma sizes_block : forall {A} (hd : S_) (hb : bytes) (f : A -> S_) (g : A -> bytes) (h : A -> N) l,
  sizes hd (len hb) -> Forall (fun x => sizes (f x) (len (g x) + h x)) l ->
  sizes (sseq hd (s_each f l)) (len (hb ++ flat_map g l) + sum (map h l)).
Proof.
  intros A hd hb f g h l H1 H2. rewrite len_app, <- N.add_assoc, <- sum_split.
  apply sizes_seq; [assumption|]. apply sizes_each. assumption.
Qed.

Lemma size_any : forall v, any_ok v -> sizes (siz_any v) (len (any_bytes v) + any_excess v).
Proof.
  induction v as [|s|l IH|k l|l|k l IH|l IH|l IH|] using gov_rec'; intro H; cbn [siz_any any_bytes any_ok any_excess] in *;
    try rewrite all_Forall in H.
  - apply (sizes_seq (add32 1) (add32 1) 1 1); apply sizes_add.
  - destruct s; try (apply (size_scal _ H)).
    cbn [len length N.of_nat]. apply (size_time t). exact H.
  - destruct H as [L H]. rewrite u32_small by assumption.
    apply sizes_block; [apply size_arr|]. rewrite Forall_forall in *. auto.
  - destruct H as [L H]. rewrite (u32_small (len l)) by assumption.
    assert (E : forall x, In x l -> kind_of x = k /\ sizes (siz_scal x) (len (mv_bytes (scal_mv x)) + scal_excess x)).
    { intros x Hx. rewrite Forall_forall in H. destruct (H x Hx). split; [assumption|]. apply size_scal; assumption. }
    destruct k; cbn [siz_slice_kind slice_elem]; try (apply sizes_skip);
    try (replace (len (_ ++ _) + 0) with
           (len (arr_head (short_len 16 false (len l)) (len l) ++ flat_map (fun s => mv_bytes (scal_mv s)) l)
            + sum (map (fun _ => 0) l)) by (rewrite sum_zero; [reflexivity|apply Forall_forall; reflexivity]);
         apply sizes_block; [apply size_arr|]; apply Forall_forall; intros x Hx; destruct (E x Hx) as [K S];
         destruct x; try discriminate K; exact S).
    change (len (@nil N)) with 0. rewrite N.add_0_l.
    apply sizes_seq; [apply size_arr|]. apply sizes_each. apply Forall_forall; intros x Hx.
    destruct (E x Hx) as [K S]. destruct x; try discriminate K. cbn [scal_excess] in S. rewrite N.add_0_r in S. exact S.
  - destruct H as [L H]. rewrite u32_small by assumption.
    replace (len (_ ++ _) + 0) with
      (len (map_head (short_len 16 false (len l)) (len l) ++
            flat_map (fun kv => mv_bytes (scal_mv (SStr (fst kv))) ++ mv_bytes (scal_mv (SStr (snd kv)))) l)
       + sum (map (fun _ => 0) l)) by (rewrite sum_zero; [reflexivity|apply Forall_forall; reflexivity]).
    apply sizes_block; [apply size_map|]. rewrite Forall_forall in *. intros x Hx. rewrite N.add_0_r, len_app.
    apply sizes_seq; apply size_str; apply (H x Hx).
  - destruct H as [L H]. rewrite map_kind_spec. destruct (map_key k) eqn:K; [|apply sizes_skip].
    rewrite u32_small by assumption.
    apply (sizes_block _ _ (fun kv => sseq (siz_scal (fst kv)) (siz_any (snd kv)))
      (fun kv => mv_bytes (scal_mv (fst kv)) ++ any_bytes (snd kv)) (fun kv => any_excess (snd kv))); [apply size_map|].
    rewrite Forall_forall in *. intros [a b] Hx. specialize (IH _ Hx). specialize (H _ Hx). cbn [fst snd] in *.
    destruct H as [[H1 H2] H3]. rewrite len_app, <- N.add_assoc.
    apply sizes_seq; [|apply IH, H3]. pose proof (size_scal a H1) as S.
    replace (scal_excess a) with 0 in S; [rewrite N.add_0_r in S; exact S|].
    subst k. destruct a; try reflexivity. discriminate K.
  - destruct H as [L H]. rewrite u32_small by assumption.
    apply (sizes_block _ _ (fun kv => sseq (siz_any (fst kv)) (siz_any (snd kv)))
      (fun kv => any_bytes (fst kv) ++ any_bytes (snd kv)) (fun kv => any_excess (fst kv) + any_excess (snd kv))); [apply size_map|].
    rewrite Forall_forall in *. intros [a b] Hx. specialize (IH _ Hx). specialize (H _ Hx). cbn [fst snd] in *.
    rewrite len_app. replace (len (any_bytes a) + len (any_bytes b) + (any_excess a + any_excess b)) with
      (len (any_bytes a) + any_excess a + (len (any_bytes b) + any_excess b)) by lia.
    apply sizes_seq; apply IH; apply H.
  - rewrite <- (sum_split (fun c : prim + gov => match c with inl p => prim_bytes p | inr v => any_bytes v end)).
    apply sizes_each. rewrite Forall_forall in *. intros x Hx. specialize (IH x Hx). specialize (H x Hx).
    destruct x as [p|v]; [apply size_prim, H|apply IH, H].
  - apply sizes_skip.
Qed.

Lemma size_calls : forall l, calls_ok l -> siz_calls l 0 = u32 (len (calls_bytes l) + calls_excess l).
Proof.
  intros l H. pose proof (size_any (GCodec l) H 0) as X. rewrite N.add_0_l in X. apply X. reflexivity.
Qed.

(** ** Visiting maps in another order changes neither lengths nor excess *)
Lemma sum_perm : forall l l', Permutation l l' -> sum l = sum l'.
Proof. intros l l' H; induction H; cbn in *; try reflexivity; unfold sum in *; lia. Qed.
Lemma flat_len : forall {A} (g : A -> bytes) l, len (flat_map g l) = sum (map (fun x => len (g x)) l).
Proof. intros A g l; induction l; cbn [flat_map map sum fold_right]; [reflexivity|]. rewrite len_app, IHl. reflexivity. Qed.
Lemma Forall2_len : forall {A B} (R : A -> B -> Prop) l l', Forall2 R l l' -> len l = len l'.
Proof. intros A B R l l' H; induction H; [reflexivity|]. rewrite !len_cons, IHForall2. reflexivity. Qed.
Lemma perm_len : forall {A} (l l' : list A), Permutation l l' -> len l = len l'.
Proof. intros. unfold len. erewrite Permutation_length by eassumption. reflexivity. Qed.
Lemma sum_F2 : forall {A} (g : A -> N) l l', Forall2 (fun a b => g a = g b) l l' -> sum (map g l) = sum (map g l').
Proof. intros A g l l' H; induction H; cbn; [reflexivity|]. unfold sum in IHForall2. rewrite H, IHForall2. reflexivity. Qed.
Lemma sum_perm_map : forall {A} (g : A -> N) l l', Permutation l l' -> sum (map g l) = sum (map g l').
Proof. intros. apply sum_perm, Permutation_map. assumption. Qed.

Lemma F2_impl : forall {A} (P : A -> Prop) (R S : A -> A -> Prop) l l',
  Forall P l -> (forall a b, P a -> R a b -> S a b) -> Forall2 R l l' -> Forall2 S l l'.
Proof. intros A P R S l l' HP I H; induction H; constructor; inversion HP; subst; auto. Qed.

Definition meas (v : gov) : N := len (any_bytes v).

Lemma same_meas : forall v w, same_any v w -> len (any_bytes v) = len (any_bytes w) /\ any_excess v = any_excess w.
Proof.
  induction v as [|s|l IH|k l|l|k l IH|l IH|l IH|] using gov_rec'; intros w H; inversion H; subst; try (split; reflexivity).
  - rename l' into m. pose proof (Forall2_len _ _ _ H1) as L. cbn [any_bytes any_excess].
    rewrite !len_app, !flat_len, L. split.
    + f_equal. apply sum_F2. eapply F2_impl; [exact IH| |exact H1]. intros a b I R. apply I, R.
    + apply sum_F2. eapply F2_impl; [exact IH| |exact H1]. intros a b I R. apply I, R.
  - split; [|reflexivity]. cbn [any_bytes]. rewrite !len_app, !flat_len, (perm_len _ _ H1). f_equal.
    apply sum_perm_map; assumption.
  - cbn [any_bytes any_excess]. destruct (map_key k); [|split; reflexivity].
    rewrite !len_app, !flat_len, <- (perm_len _ _ H4), <- (Forall2_len _ _ _ H2). split.
    + f_equal. rewrite <- (sum_perm_map _ _ _ H4). apply sum_F2.
      eapply F2_impl; [exact IH| |exact H2]. intros [a a'] [b b'] I [R1 R2]. cbn [fst snd] in *. subst.
      rewrite !len_app. destruct (I _ R2) as [-> _]. reflexivity.
    + rewrite <- (sum_perm_map _ _ _ H4). apply sum_F2.
      eapply F2_impl; [exact IH| |exact H2]. intros [a a'] [b b'] I [R1 R2]. cbn [fst snd] in *. apply I, R2.
  - cbn [any_bytes any_excess].
    rewrite !len_app, !flat_len, <- (perm_len _ _ H2), <- (Forall2_len _ _ _ H1). split.
    + f_equal. rewrite <- (sum_perm_map _ _ _ H2). apply sum_F2.
      eapply F2_impl; [exact IH| |exact H1]. intros [a a'] [b b'] [I1 I2] [R1 R2]. cbn [fst snd] in *.
      rewrite !len_app. destruct (I1 _ R1) as [-> _]. destruct (I2 _ R2) as [-> _]. reflexivity.
    + rewrite <- (sum_perm_map _ _ _ H2). apply sum_F2.
      eapply F2_impl; [exact IH| |exact H1]. intros [a a'] [b b'] [I1 I2] [R1 R2]. cbn [fst snd] in *.
      destruct (I1 _ R1) as [_ ->]. destruct (I2 _ R2) as [_ ->]. reflexivity.
  - cbn [any_bytes any_excess]. rewrite !flat_len. split.
    + apply sum_F2. eapply F2_impl; [exact IH| |exact H1]. intros a b I R. inversion R; subst; [reflexivity|apply I; assumption].
    + apply sum_F2. eapply F2_impl; [exact IH| |exact H1]. intros a b I R. inversion R; subst; [reflexivity|apply I; assumption].
Qed.

Lemma same_calls_meas : forall l l', same_calls l l' ->
  len (calls_bytes l) = len (calls_bytes l') /\ calls_excess l = calls_excess l'.
Proof. intros l l' H. apply (same_meas (GCodec l) (GCodec l')). constructor. exact H. Qed.

(** The whole of codec.go: the buffer holds the bytes, followed by one zero byte per excess byte. *)
Lemma to_bytes_result : forall ck sized calls, same_calls sized calls -> calls_ok sized -> calls_ok calls ->
  len (calls_bytes calls) + calls_excess calls < 2^32 ->
  to_bytes ck sized calls = Ret (calls_bytes calls ++ repeat 0 (N.to_nat (calls_excess calls))).
Proof.
  intros ck sized calls S O1 O2 B. unfold to_bytes.
  destruct (same_calls_meas _ _ S) as [E1 E2].
  rewrite size_calls, E1, E2, u32_small by assumption.
  replace (N.to_nat (len (calls_bytes calls) + calls_excess calls)) with
    (length (calls_bytes calls) + N.to_nat (calls_excess calls))%nat by (unfold len; lia).
  unfold new_dr. rewrite repeat_app.
  pose proof (calls_writes calls O2 [] (repeat 0 (length (calls_bytes calls)) ++ repeat 0 (N.to_nat (calls_excess calls)))) as X.
  unfold at_ in X. cbn [app] in X. change (len (@nil N)) with 0 in X.
  rewrite X.
  - cbn [d_err d_buf]. rewrite andb_false_r. rewrite skipn_len_app by (rewrite repeat_length; reflexivity). reflexivity.
  - unfold fits. change (len (@nil N)) with 0. rewrite len_app, !len_repeat. unfold len in *. lia.
  - rewrite len_app, !len_repeat. unfold len in *. lia.
Qed.
