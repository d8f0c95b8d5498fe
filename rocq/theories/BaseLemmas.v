(** Lemmas about [Base]. *)
From Coq Require Import List NArith ZArith Lia Bool ZifyBool ZifyNat ZifyN.
From Verif Require Import Base.
Import ListNotations.
Open Scope N_scope.

Ltac Zify.zify_post_hook ::= Z.div_mod_to_equations.

Lemma len_app : forall {A} (a b : list A), len (a ++ b) = len a + len b.
Proof. intros; unfold len; rewrite app_length; lia. Qed.
Lemma len_cons : forall {A} (x : A) (l : list A), len (x :: l) = 1 + len l.
Proof. intros; unfold len; cbn [length]; lia. Qed.
Lemma len_nil : forall {A}, len (@nil A) = 0.
Proof. reflexivity. Qed.
Lemma len_0 : forall {A} (l : list A), len l = 0 -> l = [].
Proof. intros A [|x l] H; [reflexivity|]. unfold len in H; cbn [length] in H; lia. Qed.
Lemma len_repeat : forall {A} (x : A) n, len (repeat x n) = N.of_nat n.
Proof. intros; unfold len; rewrite repeat_length; reflexivity. Qed.
Lemma len_firstn : forall {A} (l : list A) n, len (firstn n l) = N.min (N.of_nat n) (len l).
Proof. intros; unfold len; rewrite firstn_length; lia. Qed.
Lemma len_skipn : forall {A} (l : list A) n, len (skipn n l) = len l - N.of_nat n.
Proof. intros; unfold len; rewrite skipn_length; lia. Qed.

(** ** Bits *)
Lemma lor_add : forall a b k, b < 2^k -> N.lor (a * 2^k) b = a * 2^k + b.
Proof.
  intros a b k Hb.
  assert (H0 : N.land (a * 2^k) b = 0).
  { apply N.bits_inj_0; intro n. rewrite N.land_spec.
    destruct (N.ltb_spec n k).
    - rewrite N.mul_pow2_bits_low by assumption. reflexivity.
    - destruct (N.eq_dec b 0) as [->|]. { rewrite N.bits_0, andb_false_r. reflexivity. }
      rewrite (N.bits_above_log2 b n), andb_false_r; [reflexivity|].
      apply N.lt_le_trans with k; [|assumption].
      apply N.log2_lt_pow2; lia. }
  rewrite <- N.lxor_lor by assumption. symmetry; apply N.add_nocarry_lxor; assumption.
Qed.

Lemma lor_shiftl_add : forall a b k, b < 2^k -> N.lor (N.shiftl a k) b = a * 2^k + b.
Proof. intros; rewrite N.shiftl_mul_pow2; apply lor_add; assumption. Qed.

Lemma land_ones_mod : forall a k, N.land a (2^k - 1) = a mod 2^k.
Proof. intros. rewrite <- N.land_ones. f_equal. rewrite N.ones_equiv. lia. Qed.

(** ** Well-formed buffers *)
Lemma wfb_wf : forall l, wfb l = true <-> wf l.
Proof.
  intro l; unfold wfb, wf, is_byte. rewrite forallb_forall, Forall_forall.
  split; intros H x Hx; specialize (H x Hx); lia.
Qed.
Lemma wf_app : forall a b, wf (a ++ b) <-> wf a /\ wf b.
Proof. intros; unfold wf; apply Forall_app. Qed.
Lemma wf_firstn : forall n l, wf l -> wf (firstn n l).
Proof. intros n l; revert n; induction l; intros [|n] H; cbn; try constructor; inversion H; subst; auto. apply IHl; assumption. Qed.
Lemma wf_skipn : forall n l, wf l -> wf (skipn n l).
Proof. intros n l; revert n; induction l; intros [|n] H; cbn; auto. inversion H; subst; apply IHl; assumption. Qed.
Lemma wf_cons : forall b l, wf (b :: l) <-> b < 256 /\ wf l.
Proof. intros; unfold wf; rewrite Forall_cons_iff. reflexivity. Qed.
Lemma wf_nil : wf [].
Proof. constructor. Qed.
Lemma wf_repeat : forall b n, b < 256 -> wf (repeat b n).
Proof. intros; induction n; cbn; constructor; auto. Qed.

(** ** Big-endian numbers *)
Lemma be_length : forall w v, length (be w v) = w.
Proof. induction w; intros; cbn [be length]; auto. Qed.
Lemma be_len : forall w v, len (be w v) = N.of_nat w.
Proof. intros; unfold len; rewrite be_length; reflexivity. Qed.
Lemma be_wf : forall w v, wf (be w v).
Proof. induction w; intros; cbn [be]; constructor; [apply N.mod_lt; lia|apply IHw]. Qed.

Lemma unbe_app1 : forall l b, unbe (l ++ [b]) = N.lor (N.shiftl (unbe l) 8) b.
Proof. intros; unfold unbe; rewrite fold_left_app; reflexivity. Qed.

Lemma unbe_snoc : forall l b, b < 256 -> unbe (l ++ [b]) = unbe l * 256 + b.
Proof. intros; rewrite unbe_app1, lor_shiftl_add by (cbn; lia). reflexivity. Qed.

Lemma pow256 : forall w : nat, 2 ^ (8 * N.of_nat w) = 256 ^ N.of_nat w.
Proof. intro. rewrite N.pow_mul_r. reflexivity. Qed.

Lemma unbe_app : forall b a, wf b -> unbe (a ++ b) = unbe a * 256 ^ len b + unbe b.
Proof.
  intros b; induction b as [|x b IH] using rev_ind; intros a Hwf.
  - rewrite app_nil_r. change (len (@nil N)) with 0. change (unbe []) with 0.
    change (256^0) with 1. lia.
  - apply wf_app in Hwf as [H1 H2]. apply wf_cons in H2 as [H2 _].
    rewrite app_assoc, !unbe_snoc, IH by assumption.
    rewrite len_app. change (len [x]) with 1. rewrite N.pow_add_r. change (256^1) with 256. lia.
Qed.

Lemma unbe_cons : forall x b, wf (x :: b) -> unbe (x :: b) = x * 256 ^ len b + unbe b.
Proof.
  intros x b H. apply wf_cons in H as [H1 H2].
  change (x :: b) with ([x] ++ b). rewrite unbe_app by assumption.
  f_equal.
Qed.

Lemma unbe_bound : forall l, wf l -> unbe l < 256 ^ len l.
Proof.
  induction l; intros H. { cbn; lia. }
  rewrite unbe_cons by assumption. apply wf_cons in H as [H1 H2].
  rewrite len_cons, N.pow_add_r. change (256^1) with 256. specialize (IHl H2). nia.
Qed.

Lemma unbe_be : forall w v, unbe (be w v) = v mod 256 ^ N.of_nat w.
Proof.
  induction w; intro v.
  - cbn [be]. change (256 ^ N.of_nat 0) with 1. rewrite N.mod_1_r. reflexivity.
  - change (be (S w) v) with (N.shiftr v (8 * N.of_nat w) mod 256 :: be w v).
    rewrite unbe_cons by (apply (be_wf (S w) v)).
    rewrite IHw, be_len, N.shiftr_div_pow2, pow256.
    replace (N.of_nat (S w)) with (1 + N.of_nat w) by lia.
    rewrite N.pow_add_r. change (256^1) with 256.
    set (p := 256 ^ N.of_nat w). assert (p <> 0) by (apply N.pow_nonzero; lia).
    rewrite (N.mul_comm 256 p), N.mod_mul_r by lia. lia.
Qed.

Lemma unbe_be_small : forall w v, v < 256 ^ N.of_nat w -> unbe (be w v) = v.
Proof. intros; rewrite unbe_be. apply N.mod_small; assumption. Qed.

Lemma be_mod : forall w v m, (w <= m)%nat -> be w (v mod 256 ^ N.of_nat m) = be w v.
Proof.
  induction w; intros v m Hm; cbn [be]; [reflexivity|].
  rewrite IHw by lia. f_equal.
  rewrite !N.shiftr_div_pow2, pow256.
  replace (N.of_nat m) with (N.of_nat w + (1 + (N.of_nat m - N.of_nat w - 1))) by lia.
  rewrite N.pow_add_r, N.pow_add_r.
  set (p := 256 ^ N.of_nat w). set (q := 256 ^ (N.of_nat m - N.of_nat w - 1)). change (256^1) with 256.
  assert (p <> 0) by (apply N.pow_nonzero; lia). assert (q <> 0) by (apply N.pow_nonzero; lia).
  rewrite N.mod_mul_r by lia.
  rewrite (N.mul_comm p ((v / p) mod (256*q))), N.div_add by lia.
  rewrite N.div_small by (apply N.mod_lt; lia). rewrite N.add_0_l.
  rewrite N.mod_mul_r by lia. rewrite (N.mul_comm 256), N.mod_add by lia.
  apply N.mod_mod; lia.
Qed.

Lemma be_unbe : forall l, wf l -> be (length l) (unbe l) = l.
Proof.
  induction l as [|x l IH]; intros H; [reflexivity|].
  cbn [length be].
  pose proof H as H0. apply wf_cons in H as [H1 H2].
  rewrite unbe_cons by assumption.
  rewrite N.shiftr_div_pow2, pow256. fold (len l).
  assert (256 ^ len l <> 0) by (apply N.pow_nonzero; lia).
  rewrite N.div_add_l by assumption. rewrite (N.div_small (unbe l)) by (apply unbe_bound; assumption).
  rewrite N.add_0_r, N.mod_small by assumption. f_equal.
  rewrite <- (be_mod _ _ (length l)) by lia. fold (len l).
  rewrite N.add_comm, N.mod_add by assumption.
  rewrite N.mod_small by (apply unbe_bound; assumption). apply IH; assumption.
Qed.

Lemma be_inj : forall w a b, a < 256 ^ N.of_nat w -> b < 256 ^ N.of_nat w -> be w a = be w b -> a = b.
Proof. intros w a b Ha Hb H. rewrite <- (unbe_be_small w a), <- (unbe_be_small w b), H by assumption. reflexivity. Qed.

(** ** Slices *)
Lemma firstn_len_app : forall {A} (a b : list A) n, n = length a -> firstn n (a ++ b) = a.
Proof. intros; subst. rewrite firstn_app, Nat.sub_diag, firstn_O, app_nil_r. apply firstn_all. Qed.
Lemma skipn_len_app : forall {A} (a b : list A) n, n = length a -> skipn n (a ++ b) = b.
Proof. intros; subst. rewrite skipn_app, Nat.sub_diag, skipn_all. reflexivity. Qed.

Lemma slice_from_app : forall E {A} (a b : list A) n, n = len a -> @slice_from E A (a ++ b) n = Ret b.
Proof.
  intros; unfold slice_from. rewrite len_app.
  destruct (N.leb_spec n (len a + len b)); [|lia].
  rewrite skipn_len_app; [reflexivity|]. unfold len in *; lia.
Qed.
Lemma slice_to_app : forall E {A} (a b : list A) n, n = len a -> @slice_to E A (a ++ b) n = Ret a.
Proof.
  intros; unfold slice_to. rewrite len_app.
  destruct (N.leb_spec n (len a + len b)); [|lia].
  rewrite firstn_len_app; [reflexivity|]. unfold len in *; lia.
Qed.
Lemma get_be_app : forall E w a b, length a = w -> @get_be E w (a ++ b) = Ret (unbe a).
Proof.
  intros; unfold get_be. rewrite len_app.
  destruct (N.leb_spec (N.of_nat w) (len a + len b)); [|unfold len in *; lia].
  rewrite firstn_len_app by auto. reflexivity.
Qed.

Lemma overlay_length : forall dst src, length (overlay dst src) = length dst.
Proof. intros; unfold overlay. rewrite app_length, firstn_length, skipn_length. lia. Qed.

Lemma overlay_exact : forall dst src rest, length dst = length (src ++ rest) -> 
  overlay dst src = src ++ skipn (length src) dst.
Proof.
  intros. unfold overlay. rewrite firstn_all2; [reflexivity|]. rewrite app_length in *. lia.
Qed.

(** Writing [src] at the end of the prefix [pre] that has already been written. *)
Lemma copy_at_step : forall E pre tail src, len src <= len tail ->
  @copy_at E (pre ++ tail) (len pre) src = Ret ((pre ++ src) ++ skipn (length src) tail).
Proof.
  intros E pre tail src H. unfold copy_at. rewrite len_app.
  destruct (N.leb_spec (len pre) (len pre + len tail)); [|lia].
  replace (N.to_nat (len pre)) with (length pre) by (unfold len; lia).
  rewrite firstn_len_app, skipn_len_app by reflexivity.
  unfold overlay. rewrite firstn_all2 by (unfold len in *; lia).
  rewrite <- app_assoc. reflexivity.
Qed.
Lemma put_at_step : forall E pre tail src, len src <= len tail ->
  @put_at E (pre ++ tail) (len pre) src = Ret ((pre ++ src) ++ skipn (length src) tail).
Proof.
  intros E pre tail src H. unfold put_at. rewrite len_app.
  destruct (N.leb_spec (len pre + len src) (len pre + len tail)); [|lia].
  apply copy_at_step; assumption.
Qed.

Lemma skipn_skipn : forall {A} (n m : nat) (l : list A), skipn n (skipn m l) = skipn (m + n) l.
Proof.
  intros A n m; induction m; intros l; cbn [Nat.add]; [reflexivity|].
  destruct l; [rewrite !skipn_nil; reflexivity|]. cbn [skipn]. apply IHm.
Qed.
Lemma firstn_skipn_comm' : forall {A} (n m : nat) (l : list A), firstn n l ++ firstn m (skipn n l) = firstn (n + m) l.
Proof.
  intros A n; induction n; intros m l; [reflexivity|]. destruct l; [rewrite skipn_nil, !firstn_nil; reflexivity|].
  cbn [firstn skipn app Nat.add]. f_equal. apply IHn.
Qed.

(** ** Inversion of slicing *)
Lemma slice_from_inv : forall E {A} (l : list A) n r, @slice_from E A l n = Ret r ->
  exists a, l = a ++ r /\ len a = n.
Proof.
  intros E A l n r H. unfold slice_from in H. destruct (N.leb_spec n (len l)); [|discriminate].
  injection H as <-. exists (firstn (N.to_nat n) l). split; [symmetry; apply firstn_skipn|].
  rewrite len_firstn. lia.
Qed.
Lemma slice_to_inv : forall E {A} (l : list A) n a, @slice_to E A l n = Ret a ->
  exists r, l = a ++ r /\ len a = n.
Proof.
  intros E A l n r H. unfold slice_to in H. destruct (N.leb_spec n (len l)); [|discriminate].
  injection H as <-. exists (skipn (N.to_nat n) l). split; [symmetry; apply firstn_skipn|].
  rewrite len_firstn. lia.
Qed.
Lemma get_be_inv : forall E w l v, wf l -> @get_be E w l = Ret v ->
  exists r, l = be w v ++ r /\ v < 256 ^ N.of_nat w.
Proof.
  intros E w l v Hwf H. unfold get_be in H. destruct (N.leb_spec (N.of_nat w) (len l)); [|discriminate].
  injection H as <-. exists (skipn w l).
  assert (L : length (firstn w l) = w) by (rewrite firstn_length; unfold len in *; lia).
  split.
  - rewrite <- L at 1. rewrite be_unbe by (apply wf_firstn; exact Hwf). symmetry; apply firstn_skipn.
  - pose proof (unbe_bound _ (wf_firstn w l Hwf)) as B. unfold len in B. rewrite L in B. exact B.
Qed.
Lemma slice_from_panic : forall E {A} (l : list A) n, len l < n -> @slice_from E A l n = Panic.
Proof. intros. unfold slice_from. destruct (N.leb_spec n (len l)); [lia|reflexivity]. Qed.
Lemma slice_to_panic : forall E {A} (l : list A) n, len l < n -> @slice_to E A l n = Panic.
Proof. intros. unfold slice_to. destruct (N.leb_spec n (len l)); [lia|reflexivity]. Qed.
Lemma get_be_panic : forall E w l, len l < N.of_nat w -> @get_be E w l = Panic.
Proof. intros. unfold get_be. destruct (N.leb_spec (N.of_nat w) (len l)); [lia|reflexivity]. Qed.
Lemma bind_ret : forall E A B (m : outcome E A) (k : A -> outcome E B) b, bind m k = Ret b ->
  exists a, m = Ret a /\ k a = Ret b.
Proof. intros E A B [a|e|] k b H; cbn in H; try discriminate. eauto. Qed.
Lemma app_eq_len : forall {A} (a b c d : list A), len a = len c -> a ++ b = c ++ d -> a = c /\ b = d.
Proof.
  intros A a; induction a as [|x a IH]; intros b [|y c] d L H.
  - auto.
  - rewrite len_cons in L. change (len (@nil A)) with 0 in L. lia.
  - rewrite len_cons in L. change (len (@nil A)) with 0 in L. lia.
  - rewrite !len_cons in L. cbn in H. injection H as -> H. destruct (IH b c d) as [-> ->]; auto. lia.
Qed.
