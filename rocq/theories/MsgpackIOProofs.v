(** Lemmas about the DataReader model: reading and writing at a position that splits the buffer. *)
From Coq Require Import List NArith ZArith Lia Bool ZifyBool ZifyNat ZifyN.
From Verif Require Import Base BaseLemmas OperationsModel MsgpackModel.
Import ListNotations.
Open Scope N_scope.
Ltac Zify.zify_post_hook ::= Z.div_mod_to_equations.

(** A reader standing between [pre] and [tail], and the same reader after a range error. *)
Definition at_ (pre tail : bytes) : dr := mkDR (pre ++ tail) (len pre) false.
Definition bad (pre tail : bytes) : dr := mkDR (pre ++ tail) (len pre) true.
Definition fits (pre tail : bytes) : Prop := len pre + len tail < 2^32.

Lemma at_buf : forall pre tail, d_buf (at_ pre tail) = pre ++ tail.
Proof. reflexivity. Qed.
Lemma at_off : forall pre tail, d_off (at_ pre tail) = len pre.
Proof. reflexivity. Qed.
Lemma at_err : forall pre tail, d_err (at_ pre tail) = false.
Proof. reflexivity. Qed.

Lemma fits_move : forall pre x tail, fits pre (x ++ tail) <-> fits (pre ++ x) tail.
Proof. intros; unfold fits. rewrite !len_app. lia. Qed.

Lemma u32_small : forall n, n < 2^32 -> u32 n = n.
Proof. intros. unfold u32. apply N.mod_small; assumption. Qed.

Lemma check_ok : forall pre tail n, fits pre tail -> n <= len tail -> check n (at_ pre tail) = (true, at_ pre tail).
Proof.
  intros pre tail n F H. unfold check, at_; cbn [d_err d_buf d_off]. unfold fits in F.
  rewrite !u32_small by (rewrite ?len_app; lia). rewrite len_app.
  destruct (N.ltb_spec (len pre + len tail) (len pre + n)); [lia|reflexivity].
Qed.

Lemma check_no : forall pre tail n, fits pre tail -> len tail < n -> len pre + n < 2^32 ->
  check n (at_ pre tail) = (false, bad pre tail).
Proof.
  intros pre tail n F H B. unfold check, at_, bad; cbn [d_err d_buf d_off]. unfold fits in F.
  rewrite !u32_small by (rewrite ?len_app; lia). rewrite len_app.
  destruct (N.ltb_spec (len pre + len tail) (len pre + n)); [reflexivity|lia].
Qed.

Lemma check_bad : forall pre tail n, check n (bad pre tail) = (false, bad pre tail).
Proof. reflexivity. Qed.

Lemma step_at : forall pre x tail, fits pre (x ++ tail) -> step (len x) (at_ pre (x ++ tail)) = at_ (pre ++ x) tail.
Proof.
  intros pre x tail F. unfold step, at_; cbn [d_buf d_off d_err]. unfold fits in F.
  rewrite len_app in F. rewrite u32_small by lia. rewrite len_app, <- app_assoc. reflexivity.
Qed.

(** ** Reading *)
Definition reads {A} (m : M A) (bs : bytes) (a : A) : Prop :=
  forall pre rest, fits pre (bs ++ rest) -> m (at_ pre (bs ++ rest)) = Ret (a, at_ (pre ++ bs) rest).

Lemma reads_ret : forall {A} (a : A), reads (rret a) [] a.
Proof. intros A a pre rest F. unfold rret; cbn [app]. rewrite app_nil_r. reflexivity. Qed.

Lemma reads_bind : forall {A B} (m : M A) (k : A -> M B) b1 b2 a c,
  reads m b1 a -> reads (k a) b2 c -> reads (rbind m k) (b1 ++ b2) c.
Proof.
  intros A B m k b1 b2 a c H1 H2 pre rest F. unfold rbind.
  rewrite <- app_assoc in F. rewrite <- app_assoc. rewrite H1 by assumption.
  rewrite H2 by (apply -> fits_move; assumption). rewrite <- app_assoc. reflexivity.
Qed.

Lemma reads_bind0 : forall {A B} (m : M A) (k : A -> M B) bs a c,
  reads m bs a -> reads (k a) [] c -> reads (rbind m k) bs c.
Proof. intros. rewrite <- (app_nil_r bs). eapply reads_bind; eassumption. Qed.

Lemma get_step : forall w x, length x = w -> reads (get w) x (unbe x).
Proof.
  intros w x L pre rest F. unfold get.
  rewrite check_ok by (assumption || (rewrite len_app; unfold len; lia)).
  rewrite ?at_buf, ?at_off, ?at_err.
  rewrite (slice_from_app no_err pre (x ++ rest)) by reflexivity.
  rewrite (get_be_app no_err w x rest) by assumption.
  replace (N.of_nat w) with (len x) by (unfold len; lia).
  rewrite step_at by assumption. reflexivity.
Qed.

Lemma get_int_step : forall w x, length x = w -> reads (get_int w) x (to_signed (8 * N.of_nat w) (unbe x)).
Proof. intros. unfold get_int. apply reads_bind0 with (a := unbe x); [apply get_step; assumption|apply reads_ret]. Qed.

Lemma get_bytes_step : forall x n, n = len x -> reads (get_bytes n) x x.
Proof.
  intros x n -> pre rest F. unfold get_bytes.
  rewrite check_ok by (assumption || (rewrite len_app; lia)).
  rewrite ?at_buf, ?at_off, ?at_err.
  pose proof F as F'. unfold fits in F'. rewrite len_app in F'.
  rewrite u32_small by lia. rewrite !len_app.
  replace (len pre <=? len pre + len x) with true by lia.
  replace (len pre + len x <=? len pre + (len x + len rest)) with true by lia. cbn [andb].
  rewrite skipn_len_app by (unfold len; lia).
  replace (N.to_nat (len pre + len x - len pre)) with (length x) by (unfold len; lia).
  rewrite firstn_len_app by reflexivity. rewrite step_at by assumption. reflexivity.
Qed.

Lemma discard_step : forall x n, n = len x -> reads (discard n) x tt.
Proof.
  intros x n -> pre rest F. unfold discard.
  rewrite check_ok by (assumption || (rewrite len_app; lia)). rewrite step_at by assumption. reflexivity.
Qed.

Lemma ign_step : forall m x, reads m x tt -> reads (ign m) x tt.
Proof. intros m x H pre rest F. unfold ign. rewrite H by assumption. reflexivity. Qed.

Lemma peek8_at : forall pre b rest, fits pre (b :: rest) ->
  peek8 (at_ pre (b :: rest)) = Ret (b, at_ pre (b :: rest)).
Proof.
  intros pre b rest F. unfold peek8. rewrite check_ok by (assumption || (rewrite len_cons; lia)).
  unfold index. rewrite ?at_buf, ?at_off, ?at_err.
  rewrite nth_error_app2 by (unfold len; lia).
  replace (N.to_nat (len pre) - length pre)%nat with 0%nat by (unfold len; lia). reflexivity.
Qed.

(** What a fixed-size read does anywhere: it takes [w] bytes or records a range error. *)
Lemma get_cases : forall w pre tail, fits pre tail -> len pre + N.of_nat w < 2^32 ->
  (exists x rest, tail = x ++ rest /\ length x = w /\ get w (at_ pre tail) = Ret (unbe x, at_ (pre ++ x) rest))
  \/ (len tail < N.of_nat w /\ get w (at_ pre tail) = Fail (ErrRange, bad pre tail)).
Proof.
  intros w pre tail F B. destruct (N.ltb_spec (len tail) (N.of_nat w)).
  - right. split; [assumption|]. unfold get. rewrite check_no by assumption. reflexivity.
  - left. exists (firstn w tail), (skipn w tail).
    assert (L : length (firstn w tail) = w) by (rewrite firstn_length; unfold len in *; lia).
    assert (E : tail = firstn w tail ++ skipn w tail) by (symmetry; apply firstn_skipn).
    split; [exact E|]. split; [exact L|].
    rewrite E at 1. apply get_step; [exact L|]. rewrite <- E. exact F.
Qed.

(** ** Writing *)
Definition writes (w : W) (bs : bytes) : Prop :=
  forall pre tail, fits pre tail -> len bs <= len tail ->
    w (at_ pre tail) = Ret (at_ (pre ++ bs) (skipn (length bs) tail)).

Lemma writes_skip : writes wskip [].
Proof. intros pre tail F H. cbn. rewrite app_nil_r. reflexivity. Qed.

Lemma writes_seq : forall a b x y, writes a x -> writes b y -> writes (wseq a b) (x ++ y).
Proof.
  intros a b x y Ha Hb pre tail F H. unfold wseq. rewrite len_app in H.
  rewrite Ha by (assumption || lia). cbn [bind]. rewrite Hb.
  - rewrite <- app_assoc, skipn_skipn, app_length. reflexivity.
  - unfold fits in *. rewrite len_app, len_skipn. unfold len in *. lia.
  - rewrite len_skipn. unfold len in *. lia.
Qed.

Lemma set_fix_writes : forall src, writes (set_fix src) src.
Proof.
  intros src pre tail F H. unfold set_fix. rewrite check_ok by assumption.
  rewrite ?at_buf, ?at_off, ?at_err.
  rewrite put_at_step by assumption. cbn [bind].
  unfold step; cbn [d_buf d_off d_err]. unfold at_. rewrite len_app. unfold fits in F. rewrite u32_small by lia.
  reflexivity.
Qed.

Lemma set_uint_writes : forall w v, writes (set_uint w v) (be w v).
Proof. intros; apply set_fix_writes. Qed.

Lemma set_bytes_writes : forall src, len src < 2^32 -> writes (set_bytes src) src.
Proof.
  intros src L pre tail F H. unfold set_bytes. rewrite (u32_small (len src)) by assumption.
  rewrite check_ok by assumption.
  rewrite ?at_buf, ?at_off, ?at_err.
  rewrite copy_at_step by assumption. cbn [bind].
  unfold step; cbn [d_buf d_off d_err]. unfold at_. rewrite len_app. unfold fits in F. rewrite u32_small by lia.
  reflexivity.
Qed.

(** ** Signed numbers *)
Lemma to_of_signed : forall k z, (0 < k)%nat -> (- 2 ^ (8 * Z.of_nat k - 1) <= z < 2 ^ (8 * Z.of_nat k - 1))%Z ->
  to_signed (8 * N.of_nat k) (of_signed (8 * N.of_nat k) z) = z.
Proof.
  intros k z K H. unfold to_signed, of_signed.
  rewrite N2Z.inj_mul. rewrite nat_N_Z. change (Z.of_N 8) with 8%Z.
  set (m := (8 * Z.of_nat k)%Z) in *.
  assert (E : (2 ^ m = 2 * 2 ^ (m - 1))%Z).
  { rewrite <- Z.pow_succ_r by lia. f_equal. lia. }
  assert (P : (0 < 2 ^ (m - 1))%Z) by (apply Z.pow_pos_nonneg; lia).
  assert (En : 2 ^ (8 * N.of_nat k - 1) = Z.to_N (2 ^ (m - 1))).
  { rewrite Z2N.inj_pow by lia. f_equal. lia. }
  rewrite En.
  assert (D : (z mod 2 ^ m = z \/ z mod 2 ^ m = z + 2 ^ m)%Z).
  { destruct (Z.leb_spec 0 z).
    - left. apply Z.mod_small; lia.
    - right. symmetry. apply Z.mod_unique_pos with (q := (-1)%Z); lia. }
  assert (B : (0 <= z mod 2 ^ m < 2 ^ m)%Z) by (apply Z.mod_pos_bound; lia).
  destruct D as [D|D]; rewrite D in *; clear D.
  - destruct (N.ltb_spec (Z.to_N z) (Z.to_N (2 ^ (m - 1)))); [lia|]. lia.
  - destruct (N.ltb_spec (Z.to_N (z + 2 ^ m)) (Z.to_N (2 ^ (m - 1)))); lia.
Qed.

Lemma of_signed_bound : forall k z, of_signed (8 * N.of_nat k) z < 256 ^ N.of_nat k.
Proof.
  intros k z. unfold of_signed.
  assert (E : (2 ^ Z.of_N (8 * N.of_nat k))%Z = Z.of_N (256 ^ N.of_nat k)).
  { rewrite N2Z.inj_mul, N2Z.inj_pow. rewrite Z.pow_mul_r by lia. reflexivity. }
  rewrite E. assert (0 < 256 ^ N.of_nat k) by (apply N.neq_0_lt_0, N.pow_nonzero; lia).
  assert (0 <= z mod Z.of_N (256 ^ N.of_nat k) < Z.of_N (256 ^ N.of_nat k))%Z by (apply Z.mod_pos_bound; lia).
  lia.
Qed.

Lemma unbe_of_signed : forall k z, unbe (be k (of_signed (8 * N.of_nat k) z)) = of_signed (8 * N.of_nat k) z.
Proof. intros. apply unbe_be_small, of_signed_bound. Qed.
