(** What ReadTime accepts, the heads of extensions, and equality of map keys. *)
From Coq Require Import List NArith ZArith Lia Bool ZifyBool ZifyNat ZifyN.
From Verif Require Import Base BaseLemmas OperationsModel MsgpackModel MsgpackSpec MsgpackReadSpec MsgpackIOProofs
  MsgpackProofs MsgpackReadProofs MsgpackSizeProofs MsgpackTreeProofs MsgpackPropsProofs MsgpackAcceptProofs MsgpackTimeSpec.
Import ListNotations.
Open Scope N_scope.

(** ** Keys *)
Lemma nan_iff : forall e m x, ((2 ^ e - 1) * 2 ^ m <? x mod 2 ^ (e + m)) = true <-> not_number e m x.
Proof.
  intros e m x. unfold not_number. rewrite N.ltb_lt, N.add_comm, N.pow_add_r.
  assert (P : 2 ^ m <> 0) by (apply N.pow_nonzero; lia). assert (Q : 2 ^ e <> 0) by (apply N.pow_nonzero; lia).
  rewrite N.mod_mul_r by assumption.
  pose proof (N.mod_lt x (2 ^ m) P) as R. pose proof (N.mod_lt (x / 2 ^ m) (2 ^ e) Q) as S.
  generalize dependent (x mod 2 ^ m). generalize dependent (x / 2 ^ m mod 2 ^ e). generalize dependent (2 ^ m). generalize dependent (2 ^ e).
  intros E NE M NM q Hq r Hr. split.
  - intro H. assert (q = E - 1) by nia. subst q. split; [reflexivity|]. nia.
  - intros [-> H]. nia.
Qed.
Lemma feq_iff : forall e m x y, feq e m x y = true <-> same_float e m x y.
Proof.
  intros e m x y. unfold feq, same_float. cbv zeta. rewrite !andb_true_iff, orb_true_iff, andb_true_iff, !negb_true_iff, !N.eqb_eq.
  rewrite <- !nan_iff. rewrite <- !not_true_iff_false. tauto.
Qed.
Lemma key_iff : forall a b, key_eq a b = true <-> same_key a b.
Proof.
  intros a b. destruct a, b; cbn [key_eq same_key]; try (split; [discriminate|contradiction]); try apply Z.eqb_eq; try apply N.eqb_eq; try apply feq_iff.
  - split; auto.
  - rewrite eqb_true_iff. reflexivity.
  - destruct (list_eq_dec N.eq_dec s s0); split; congruence.
Qed.

(** ** Readers that accept exactly certain items *)
Definition small (pre tail : bytes) : Prop := len pre + len tail < 2^31.
Definition accepts {A} (m : M A) (R : bytes -> A -> Prop) : Prop := forall pre tail a d', wf tail -> small pre tail ->
  (m (at_ pre tail) = Ret (a, d') <-> exists hd rest, R hd a /\ tail = hd ++ rest /\ d' = at_ (pre ++ hd) rest).
Lemma small_move : forall pre hd rest, small pre (hd ++ rest) -> small (pre ++ hd) rest.
Proof. intros pre hd rest. unfold small. rewrite !len_app. lia. Qed.
Lemma accepts_ext : forall {A} (m : M A) R R', accepts m R -> (forall hd a, wf hd -> (R hd a <-> R' hd a)) -> accepts m R'.
Proof.
  intros A m R R' H E pre tail a d' W S. rewrite (H pre tail a d' W S). split; intros (hd & rest & X & -> & D); exists hd, rest; (split; [|split; [reflexivity|exact D]]); apply wf_app in W as [W _]; apply (E hd a W); exact X.
Qed.
Lemma accepts_ret : forall {A} (x : A), accepts (rret x) (fun hd a => hd = [] /\ a = x).
Proof.
  intros A x pre tail a d' W S. unfold rret. split.
  - intro E. exists [], tail. split; [split; [reflexivity|congruence]|]. split; [reflexivity|]. rewrite app_nil_r. congruence.
  - intros (hd & rest & [-> ->] & -> & ->). rewrite app_nil_r. reflexivity.
Qed.
Lemma accepts_fail : forall {A} e, accepts (@rfail A e) (fun _ _ => False).
Proof. intros A e pre tail a d' W S. unfold rfail. split; [discriminate|]. intros (hd & rest & [] & _). Qed.
Lemma accepts_bind : forall {A B} (m : M A) (k : A -> M B) R R', accepts m R -> (forall a, (exists hd, wf hd /\ R hd a) -> accepts (k a) (R' a)) ->
  accepts (rbind m k) (fun hd b => exists h1 a h2, hd = h1 ++ h2 /\ R h1 a /\ R' a h2 b).
Proof.
  intros A B m k R R' H K pre tail b d' W S. unfold rbind. split.
  - destruct (m (at_ pre tail)) as [[a d1]|e|] eqn:E; try discriminate. intro E2. apply (H pre tail a d1 W S) in E. destruct E as (h1 & rest & X & -> & ->).
    apply wf_app in W as [W1 W2]. apply (K a (ex_intro _ h1 (conj W1 X)) (pre ++ h1) rest b d' W2 (small_move _ _ _ S)) in E2 as (h2 & rest' & Y & -> & ->).
    exists (h1 ++ h2), rest'. split; [exists h1, a, h2; auto|]. rewrite <- !app_assoc. split; reflexivity.
  - intros (hd & rest & (h1 & a & h2 & -> & X & Y) & -> & ->). rewrite <- app_assoc in *.
    apply wf_app in W as [W1 W2]. pose proof (proj2 (H pre (h1 ++ h2 ++ rest) a (at_ (pre ++ h1) (h2 ++ rest)) (proj2 (wf_app _ _) (conj W1 W2)) S)) as E. rewrite E by (exists h1, (h2 ++ rest); auto).
    apply (K a (ex_intro _ h1 (conj W1 X)) (pre ++ h1) (h2 ++ rest) b _ W2 (small_move _ _ _ S)). exists h2, rest. split; [exact Y|]. split; [reflexivity|]. rewrite <- app_assoc. reflexivity.
Qed.
Lemma accepts_get1 : accepts (get 1) (fun hd b => hd = [b] /\ b < 256).
Proof.
  intros pre tail a d' W S. destruct (bounds pre tail S) as [F R].
  assert (Z : forall A (m : M A) x, rbind m rret x = m x). { intros A m x. unfold rbind, rret. destruct (m x) as [[]|[]|]; reflexivity. }
  rewrite <- Z. destruct (prefix_cases pre tail F R W) as [(b & rest & -> & Hb & Wr & ->)|(-> & ->)].
  - unfold rret. split.
    + intro E. exists [b], rest. assert (a = b) by congruence. subst a. split; [split; [reflexivity|exact Hb]|]. split; [reflexivity|congruence].
    + intros (hd & r & [-> _] & E & ->). cbn [app] in E. injection E as -> ->. reflexivity.
  - split; [discriminate|]. intros (hd & r & [-> _] & E & _). discriminate E.
Qed.
Lemma accepts_uint : forall hi, accepts (ReadUintN hi) (fun hd n => n <= hi /\ length_item hd n).
Proof.
  intros hi pre tail n d' W S. change (at_ pre tail) with (mkDR (pre ++ tail) (len pre) false). rewrite (read_uint_iff hi pre tail n d' W S). split.
  - intros (L & f & rest & I & -> & ->). exists (int_bytes f (Z.of_N n)), rest. split; [split; [exact L|exists f; auto]|]. split; [reflexivity|]. unfold at_. rewrite len_app, <- app_assoc. reflexivity.
  - intros (hd & rest & (L & f & I & ->) & -> & ->). split; [exact L|]. exists f, rest. split; [exact I|]. split; [reflexivity|]. unfold at_. rewrite len_app, <- app_assoc. reflexivity.
Qed.
Lemma accepts_bytes : forall n, n < 2^32 -> accepts (get_bytes n) (fun hd s => hd = s /\ len s = n).
Proof.
  intros n L pre tail s d' W S. destruct (bounds pre tail S) as [F R]. split.
  - intro E. apply get_bytes_inv in E as (rest & -> & -> & ->); [|assumption..]. exists s, rest. auto.
  - intros (hd & rest & [-> <-] & -> & ->). apply (get_bytes_step s (len s) eq_refl pre rest). exact F.
Qed.
Lemma accepts_text : accepts ReadString (fun hd s => exists h, text_head h (len s) /\ hd = h ++ s).
Proof.
  intros pre tail s d' W S. unfold ReadString, at_. rewrite (bytes_iff _ _ str_head_inv str_head_reads text_small pre tail s d' W S). split.
  - intros (hd & rest & H & -> & ->). exists (hd ++ s), rest. split; [exists hd; auto|]. rewrite <- !app_assoc. split; [reflexivity|]. unfold at_. rewrite !len_app. repeat rewrite <- app_assoc. rewrite ?N.add_assoc. reflexivity.
  - intros (h & rest & (hd & H & ->) & -> & ->). exists hd, rest. split; [exact H|]. rewrite <- !app_assoc. split; [reflexivity|]. unfold at_. rewrite !len_app. repeat rewrite <- app_assoc. rewrite ?N.add_assoc. reflexivity.
Qed.

(** ** Times *)
Lemma wrap64 : forall z, exists k, (to_signed 64 (of_signed 64 z) = z + k * 2^64)%Z /\ (-2^63 <= to_signed 64 (of_signed 64 z) < 2^63)%Z.
Proof.
  intro z. unfold to_signed, of_signed. change (Z.of_N 64) with 64%Z. change (2 ^ (64 - 1)) with 9223372036854775808.
  pose proof (Z.mod_pos_bound z (2^64) ltac:(lia)) as B. pose proof (Z.div_mod z (2^64) ltac:(lia)) as D.
  destruct (N.ltb_spec (Z.to_N (z mod 2 ^ 64)) 9223372036854775808) as [L|L]; rewrite Z2N.id by lia.
  - exists (- (z / 2^64))%Z. lia.
  - exists (- (z / 2^64) - 1)%Z. lia.
Qed.
Lemma moment_unique : forall s ns t t', moment s ns t -> moment s ns t' -> t = t'.
Proof.
  intros s ns [a b] [a' b'] (B & C & k & E) (B' & C' & k' & E'). cbn [t_sec t_nsec] in *.
  assert (X : ((a - a') * 1000000000 + (Z.of_N b - Z.of_N b') = (k - k') * 2^64 * 1000000000)%Z) by lia.
  assert (Z.of_N b = Z.of_N b') by (apply N2Z.inj_iff; lia). assert (a - a' = (k - k') * 2^64)%Z by lia. assert (k = k') by lia.
  f_equal; lia.
Qed.
Lemma moment_unix : forall s ns, moment s ns (time_unix s ns).
Proof.
  intros s ns. unfold moment, time_unix. cbn [t_sec t_nsec]. destruct (wrap64 (s + Z.of_N (ns / 1000000000))) as (k & E & B).
  split; [exact B|]. split; [apply N.mod_lt; discriminate|]. exists k. rewrite E.
  pose proof (N.div_mod ns 1000000000 ltac:(discriminate)) as D. set (q := ns / 1000000000) in *. set (r := ns mod 1000000000) in *. lia.
Qed.
Lemma moment_iff : forall s ns t, moment s ns t <-> t = time_unix s ns.
Proof. intros s ns t. split; [intro H; eapply moment_unique; [exact H|apply moment_unix]|intros ->; apply moment_unix]. Qed.

Definition decoded (b : bytes) : option gtime :=
  if len b =? 4 then Some (time_unix (Z.of_N (unbe b)) 0)
  else if len b =? 8 then Some (time_unix (to_signed 64 (N.land (unbe b) 0x00000003ffffffff)) (N.shiftr (unbe b) 34))
  else if len b =? 12 then Some (time_unix (to_signed 64 (unbe (skipn 4 b))) (unbe (firstn 4 b)))
  else None.
Lemma lo34 : forall s ns, s < 2^34 -> N.land (ns * 2^34 + s) 0x00000003ffffffff = s /\ N.shiftr (ns * 2^34 + s) 34 = ns.
Proof.
  intros s ns B. change 0x3ffffffff with (2^34 - 1). rewrite land_ones_mod, N.shiftr_div_pow2. split.
  - rewrite N.add_comm, N.mod_add by discriminate. apply N.mod_small, B.
  - rewrite N.div_add_l by discriminate. rewrite N.div_small by exact B. lia.
Qed.
Lemma signed34 : forall s, s < 2^34 -> to_signed 64 s = Z.of_N s.
Proof.
  intros s B. unfold to_signed. change (2 ^ (64 - 1)) with 9223372036854775808. change (2^34) with 17179869184 in B. destruct (N.ltb_spec s 9223372036854775808); [reflexivity|lia].
Qed.
Lemma stamp_iff : forall b t, wf b -> (stamp b t <-> decoded b = Some t).
Proof.
  intros b t W. assert (SI : forall x y : gtime, Some x = Some y -> y = x) by congruence. assert (SN : forall x : gtime, None = Some x -> False) by discriminate. unfold decoded. split.
  - intro H. destruct H as [s t B M|s ns t B B' M|s ns t B B' M]; apply moment_iff in M as ->.
    + rewrite be_len. cbn [N.of_nat N.eqb Pos.of_succ_nat Pos.succ Pos.eqb]. rewrite unbe_be_small by exact B. reflexivity.
    + rewrite be_len. cbn [N.of_nat N.eqb Pos.of_succ_nat Pos.succ Pos.eqb]. rewrite unbe_be_small by (change (256 ^ N.of_nat 8) with 18446744073709551616; change (2^34) with 17179869184 in *; change (2^30) with 1073741824 in *; lia).
      destruct (lo34 s ns B) as [-> ->]. rewrite signed34 by exact B. reflexivity.
    + rewrite len_app, !be_len. cbn [N.of_nat N.add N.eqb Pos.of_succ_nat Pos.succ Pos.eqb Pos.add].
      change (skipn 4 (be 4 ns ++ be 8 (Z.to_N (s mod 2^64)))) with (be 8 (Z.to_N (s mod 2 ^ 64))). change (firstn 4 (be 4 ns ++ be 8 (Z.to_N (s mod 2^64)))) with (be 4 ns).
      rewrite (unbe_be_small 4 ns) by exact B'. pose proof (Z.mod_pos_bound s (2^64) ltac:(lia)) as D.
      rewrite unbe_be_small by (change (256 ^ N.of_nat 8) with 18446744073709551616; change (2^64)%Z with 18446744073709551616%Z in *; lia).
      do 2 f_equal. pose proof (to_of_signed 8 s) as X. unfold of_signed in X. change (Z.of_N (8 * N.of_nat 8)) with 64%Z in X. change (8 * N.of_nat 8) with 64 in X. apply X; [lia|].
      change (8 * Z.of_nat 8 - 1)%Z with 63%Z. exact B.
  - pose proof (unbe_bound b W) as U. destruct (N.eqb_spec (len b) 4) as [L|L]; [|destruct (N.eqb_spec (len b) 8) as [L8|L8]; [|destruct (N.eqb_spec (len b) 12) as [L12|L12]]]; intro H; [apply SI in H; rewrite H; clear H..|exfalso; exact (SN _ H)].
    + rewrite L in U. replace b with (be 4 (unbe b)) at 1. 2:{ rewrite <- (be_unbe b W) at 2. f_equal. unfold len in L. lia. }
      apply stamp32; [exact U|apply moment_unix].
    + rewrite L8 in U. change (256 ^ 8) with 18446744073709551616 in U. replace b with (be 8 (unbe b)) at 1. 2:{ rewrite <- (be_unbe b W) at 2. f_equal. unfold len in L8. lia. }
      pose proof (N.div_mod (unbe b) (2^34) ltac:(discriminate)) as D. pose proof (N.mod_lt (unbe b) (2^34) ltac:(discriminate)) as M. set (q := unbe b / 2^34) in *. set (r := unbe b mod 2^34) in *.
      rewrite D at 1. rewrite (N.mul_comm (2^34) q). apply stamp64; [exact M|change (2^34) with 17179869184 in *; change (2^30) with 1073741824; lia|].
      replace (unbe b) with (q * 2^34 + r) by lia. destruct (lo34 r q M) as [-> ->]. rewrite signed34 by exact M. apply moment_unix.
    + assert (F : b = firstn 4 b ++ skipn 4 b) by (symmetry; apply firstn_skipn). rewrite F at 1. assert (W' := W). rewrite F in W'. apply wf_app in W' as [Wa Wb].
      assert (La : length (firstn 4 b) = 4%nat) by (rewrite firstn_length; unfold len in L12; lia). assert (Lb : length (skipn 4 b) = 8%nat) by (rewrite skipn_length; unfold len in L12; lia).
      pose proof (unbe_bound _ Wa) as Ua. pose proof (unbe_bound _ Wb) as Ub. unfold len in Ua, Ub. rewrite La in Ua. rewrite Lb in Ub. change (256 ^ N.of_nat 8) with 18446744073709551616 in Ub.
      rewrite <- (be_unbe _ Wa), La at 1. rewrite <- (be_unbe _ Wb), Lb at 1. set (u := unbe (skipn 4 b)) in *.
      assert (X : exists s, (-2^63 <= s < 2^63)%Z /\ u = Z.to_N (s mod 2^64) /\ to_signed 64 u = s).
      { unfold to_signed. change (2 ^ (64 - 1)) with 9223372036854775808. change (Z.of_N 64) with 64%Z. destruct (N.ltb_spec u 9223372036854775808).
        - exists (Z.of_N u). split; [lia|]. split; [rewrite Z.mod_small by lia; lia|reflexivity].
        - exists (Z.of_N u - 2^64)%Z. split; [lia|]. split; [|reflexivity]. rewrite <- (Z.mod_add (Z.of_N u - 2^64) 1 (2^64)) by lia. rewrite Z.mod_small by lia. lia. }
      destruct X as (s & Bs & Eu & Es). rewrite Es. rewrite Eu. apply stamp96; [exact Bs|exact Ua|apply moment_unix].
Qed.
Lemma accepts_decode : forall n, n < 2^32 -> accepts (decodeTime n) (fun hd t => len hd = n /\ stamp hd t).
Proof.
  intros n L. unfold decodeTime.
  apply accepts_ext with (R := fun hd t => exists h1 s h2, hd = h1 ++ h2 /\ (h1 = s /\ len s = n) /\ (h2 = [] /\ decoded s = Some t)).
  - apply (accepts_bind (get_bytes n) _ (fun hd s => hd = s /\ len s = n) (fun s h2 t => h2 = [] /\ decoded s = Some t)); [apply accepts_bytes, L|].
    assert (X : forall x : gtime, accepts (rret x) (fun h2 t => h2 = [] /\ Some x = Some t)). { intro x. apply (accepts_ext (A := gtime) _ _ _ (accepts_ret x)). intros hd a _. split; intros [-> E]; (split; [reflexivity|congruence]). }
    intros s _. unfold decoded. destruct (len s =? 4); [apply X|]. destruct (len s =? 8); [apply X|]. destruct (len s =? 12); [apply X|].
    apply (accepts_ext _ _ _ (accepts_fail ReadErr)). intros hd a _. split; [intros []|]. intros [_ E]. revert E. clear. discriminate.
  - intros hd t W. split.
    + intros (h1 & s & h2 & -> & [-> E] & [-> D]). rewrite app_nil_r in *. split; [exact E|]. apply stamp_iff; assumption.
    + intros [E S]. exists hd, hd, []. rewrite app_nil_r. split; [reflexivity|]. split; [auto|]. split; [reflexivity|]. apply stamp_iff; assumption.
Qed.

(** The length of an extension, as parseExtLen reads it. *)
Definition ext_len_item (c : N) (bs : bytes) (n : N) : Prop :=
  (bs = [] /\ ((c = 0xd4 /\ n = 1) \/ (c = 0xd5 /\ n = 2) \/ (c = 0xd6 /\ n = 4) \/ (c = 0xd7 /\ n = 8) \/ (c = 0xd8 /\ n = 16))) \/
  (length_item bs n /\ ((c = 0xc7 /\ n <= 255) \/ (c = 0xc8 /\ n <= 65535) \/ (c = 0xc9 /\ n <= 4294967295))).
Lemma accepts_extlen : forall c, accepts (parseExtLen c) (ext_len_item c).
Proof.
  intro c. unfold parseExtLen.
  assert (X : forall c' x, c = c' -> (forall n, ext_len_item c' [] n <-> n = x) -> (forall bs n, ext_len_item c' bs n -> bs = []) -> accepts (rret x) (ext_len_item c)).
  { intros c' x -> E1 E2. apply (accepts_ext _ _ _ (accepts_ret x)). intros hd a _. split; [intros [-> ->]; apply E1; reflexivity|]. intro H. pose proof (E2 _ _ H). subst hd. split; [reflexivity|apply E1, H]. }
  assert (Y : forall c' hi, c = c' -> (forall bs n, ext_len_item c' bs n <-> n <= hi /\ length_item bs n) -> accepts (ReadUintN hi) (ext_len_item c)).
  { intros c' hi -> E. apply (accepts_ext _ _ _ (accepts_uint hi)). intros hd a _. symmetry. apply E. }
  cbv delta [FormatFixExt1 FormatFixExt2 FormatFixExt4 FormatFixExt8 FormatFixExt16 FormatExt8 FormatExt16 FormatExt32].
  repeat match goal with |- accepts (if ?c =? ?k then _ else _) _ => destruct (N.eqb_spec c k) as [E|]; [first
    [ apply (X k); [exact E|intro len0; unfold ext_len_item; split; [intros [(_ & H)|(_ & H)]; lia|intros ->; left; split; [reflexivity|lia]]|intros bs len0 [(-> & _)|(_ & H)]; [reflexivity|lia]]
    | apply (Y k); [exact E|intros bs len0; unfold ext_len_item; split; [intros [(_ & H)|(I & H)]; [lia|split; [lia|exact I]]|intros [H I]; right; split; [exact I|lia]]] ]|] end.
  apply (accepts_ext _ _ _ (accepts_fail ReadErr)). intros hd a _. split; [intros []|]. unfold ext_len_item. intros [(_ & H)|(_ & H)]; lia.
Qed.

Lemma not_string : forall c, c < 256 -> isString c = false <-> ~ (144 <= c < 192 \/ 0xd9 <= c <= 0xdd).
Proof.
  intros c B. unfold isString. rewrite isFixedString_range, isFixedArray_range by exact B. cbv delta [FormatString8 FormatString16 FormatString32 FormatArray16 FormatArray32]. lia.
Qed.
Lemma text_first : forall hd n, text_head hd n -> exists c bs, hd = c :: bs /\ (144 <= c < 192 \/ 0xd9 <= c <= 0xdd).
Proof.
  intros hd n [(f & L & ->)|(f & D & L & ->)]; destruct f; cbn [str_head arr_head len_limit] in *; try congruence; eexists _, _; (split; [reflexivity|]); lia.
Qed.
Lemma to_signed8 : forall id, id < 256 -> (to_signed 8 id = -1)%Z /\ id = 255 \/ (to_signed 8 id = 13)%Z /\ id = 13 \/ (to_signed 8 id <> -1)%Z /\ (to_signed 8 id <> 13)%Z /\ id <> 255 /\ id <> 13.
Proof. intros id B. unfold to_signed. change (2 ^ (8 - 1)) with 128. change (2 ^ Z.of_N 8)%Z with 256%Z. destruct (N.ltb_spec id 128); lia. Qed.

(** After the tag. *)
Lemma accepts_stamp : forall c, accepts (let! (id, l) := extHeader c in if negb (id =? -1)%Z && negb (id =? 13)%Z then rfail ReadErr else decodeTime l)
  (fun hd t => exists bs id data, hd = bs ++ [id] ++ data /\ ext_len_item c bs (len data) /\ (id = 255 \/ id = 13) /\ stamp data t).
Proof.
  intro c.
  assert (H : accepts (extHeader c) (fun hd p => exists bs id, hd = bs ++ [id] /\ ext_len_item c bs (snd p) /\ id < 256 /\ fst p = to_signed 8 id)).
  { unfold extHeader. apply accepts_ext with (R := fun hd p => exists h1 l h2, hd = h1 ++ h2 /\ ext_len_item c h1 l /\ (exists h3 id h4, h2 = h3 ++ h4 /\ (h3 = [id] /\ id < 256) /\ (h4 = [] /\ p = (to_signed 8 id, l)))).
    - apply (accepts_bind (parseExtLen c) (fun l => let! id := get 1 in rret (to_signed 8 id, l)) (ext_len_item c)
        (fun l h2 p => exists h3 id h4, h2 = h3 ++ h4 /\ (h3 = [id] /\ id < 256) /\ (h4 = [] /\ p = (to_signed 8 id, l)))); [apply accepts_extlen|].
      intros l _. apply (accepts_bind (get 1) (fun id => rret (to_signed 8 id, l)) (fun h3 id => h3 = [id] /\ id < 256) (fun id h4 p => h4 = [] /\ p = (to_signed 8 id, l))); [apply accepts_get1|].
      intros id _. apply accepts_ret.
    - intros hd [z l] _. cbn [fst snd]. split.
      + intros (h1 & l' & h2 & -> & E & h3 & id & h4 & -> & [-> B] & -> & P). injection P as -> ->. exists h1, id. rewrite app_nil_r. auto.
      + intros (bs & id & -> & E & B & ->). exists bs, l, [id]. split; [reflexivity|]. split; [exact E|]. exists [id], id, []. auto. }
  apply accepts_ext with (R := fun hd t => exists h1 p h2, hd = h1 ++ h2 /\ (exists bs id, h1 = bs ++ [id] /\ ext_len_item c bs (snd p) /\ id < 256 /\ fst p = to_signed 8 id) /\ ((fst p = -1 \/ fst p = 13)%Z /\ len h2 = snd p /\ stamp h2 t)).
  - apply (accepts_bind (extHeader c) (fun p => let '(id, l) := p in if negb (id =? -1)%Z && negb (id =? 13)%Z then rfail ReadErr else decodeTime l) _ (fun p h2 t => (fst p = -1 \/ fst p = 13)%Z /\ len h2 = snd p /\ stamp h2 t) H).
    intros [id l] (hd & _ & bs & i & -> & E & _ & _). cbn [fst snd] in *.
    assert (L : l < 2^32). { change (2^32) with 4294967296. unfold ext_len_item in E. destruct E as [(_ & E)|(_ & E)]; lia. }
    destruct (Z.eqb_spec id (-1)); [|destruct (Z.eqb_spec id 13)]; cbn [negb andb].
    1,2: apply (accepts_ext _ _ _ (accepts_decode l L)); intros h t _; split; [intros [E1 E2]; split; [lia|auto]|intros (_ & E1 & E2); auto].
    apply (accepts_ext _ _ _ (accepts_fail ReadErr)). intros h t _. split; [intros []|intros (X & _)]. lia.
  - intros hd t W. split.
    + intros (h1 & [z l] & h2 & -> & (bs & id & -> & E & B & Z) & X & L & S). cbn [fst snd] in *. exists bs, id, h2. rewrite <- app_assoc. split; [reflexivity|]. rewrite L. split; [exact E|]. split; [|exact S].
      destruct (to_signed8 id B) as [[_ ->]|[[_ ->]|(N1 & N2 & _)]]; auto. exfalso. lia.
    + intros (bs & id & data & -> & E & I & S). exists (bs ++ [id]), (to_signed 8 id, len data), data. cbn [fst snd]. rewrite <- app_assoc. split; [reflexivity|].
      assert (B : id < 256) by lia. split; [exists bs, id; auto|]. destruct I as [-> | ->]; (split; [vm_compute; auto|auto]).
Qed.
Lemma stamp_len : forall data t, stamp data t -> len data = 4 \/ len data = 8 \/ len data = 12.
Proof. intros data t H. destruct H; rewrite ?len_app, !be_len; cbn; auto. Qed.
Lemma accepts_time : forall pt, accepts (ReadTime pt) (time_item pt).
Proof.
  intros pt pre tail t d' W S. destruct (bounds pre tail S) as [F R]. destruct tail as [|c rest].
  - unfold ReadTime, rbind. split.
    + destruct (peek8 (at_ pre [])) as [[x y]|[e y]|] eqn:E; try discriminate. exfalso. revert E. unfold peek8. assert (C : check 1 (at_ pre []) = (false, bad pre [])).
      { apply check_no; [exact F|reflexivity|]. unfold room in R. lia. } rewrite C. discriminate.
    + intros (hd & r & T & E & _). symmetry in E. apply app_eq_nil in E as [-> ->]. exfalso. destruct T as [(hd & s & T & E & _)|(hd & id & data & _ & _ & E & _)].
      * symmetry in E. apply app_eq_nil in E as [-> _]. destruct (text_first _ _ T) as (c & bs & E & _). discriminate E.
      * destruct hd; discriminate E.
  - assert (Hc : c < 256) by (apply wf_cons in W; tauto). unfold ReadTime, rbind at 1. rewrite peek8_at by exact F. destruct (isString c) eqn:I.
    + pose proof (accepts_bind ReadString (fun s => match pt s with Some t => rret t | None => rfail ReadErr end) _ (fun s h2 t => h2 = [] /\ pt s = Some t) accepts_text) as X.
      rewrite (X ltac:(intros s _; cbv beta; destruct (pt s) as [t'|]; [apply (accepts_ext _ _ _ (accepts_ret t')); intros h a _; split; intros [-> E]; (split; [reflexivity|congruence])|apply (accepts_ext _ _ _ (accepts_fail ReadErr)); intros h a _; split; [intros []|intros [_ E]; discriminate E]]) pre (c :: rest) t d' W S).
      split.
      * intros (hd & r & (h1 & s & h2 & -> & (h & T & ->) & -> & P) & E & ->). exists (h ++ s), r. rewrite app_nil_r in *. split; [left; exists h, s; auto|auto].
      * intros (hd & r & T & E & ->). exists hd, r. split; [|auto]. destruct T as [(h & s & T & -> & P)|(h & id & data & T & J & -> & St)].
        -- exists (h ++ s), s, []. rewrite app_nil_r. split; [reflexivity|]. split; [exists h; auto|auto].
        -- exfalso. assert (c = 0xd6 \/ c = 0xd7 \/ c = 0xc7 \/ c = 0xc8 \/ c = 0xc9) as [->|[->|[->|[->| ->]]]]; try discriminate I.
           destruct T as [[-> _]|[[-> _]|(c' & bs & Ic & -> & _)]]; cbn [app] in E; injection E as -> _; auto. cbn in Ic. intuition auto.
    + unfold rbind at 1. change (at_ pre (c :: rest)) with (at_ pre ([c] ++ rest)) at 1. rewrite (ign_step _ _ (discard_step [c] 1 eq_refl) pre rest F). apply wf_cons in W as [_ W'].
      rewrite (accepts_stamp c (pre ++ [c]) rest t d' W' (small_move pre [c] rest S)). split.
      * intros (hd & r & (bs & id & data & -> & E & J & St) & -> & ->). exists (c :: bs ++ [id] ++ data), r. cbn [app]. rewrite <- !app_assoc. split; [|split; reflexivity].
        right. exists (c :: bs), id, data. split; [|auto]. destruct (stamp_len _ _ St) as [L|[L|L]]; rewrite L in *; unfold stamp_head; unfold ext_len_item in E.
        all: destruct E as [(-> & E)|(E & E')].
        all: try (right; right; exists c, bs; split; [cbn; lia|auto]; fail).
        all: try lia.
        1: left; split; [f_equal; lia|reflexivity]. 1: right; left; split; [f_equal; lia|reflexivity].
      * intros (hd & r & T & E & ->). destruct T as [(h & s & T & -> & P)|(h & id & data & T & J & -> & St)].
        -- exfalso. destruct (text_first _ _ T) as (c' & bs & -> & B). cbn [app] in E. injection E as -> _. apply not_string in I; [tauto|exact Hc].
        -- destruct T as [[-> L]|[[-> L]|(c' & bs & Ic & -> & L)]]; cbn [app] in E; injection E as -> ->.
           ++ exists ([] ++ [id] ++ data), r. split; [|split; [reflexivity|rewrite <- app_assoc; reflexivity]]. exists [], id, data. split; [reflexivity|]. split; [left; split; [reflexivity|lia]|auto].
           ++ exists ([] ++ [id] ++ data), r. split; [|split; [reflexivity|rewrite <- app_assoc; reflexivity]]. exists [], id, data. split; [reflexivity|]. split; [left; split; [reflexivity|lia]|auto].
           ++ exists (bs ++ [id] ++ data), r. split; [|split; [rewrite <- !app_assoc; reflexivity|rewrite <- app_assoc; reflexivity]]. exists bs, id, data. split; [reflexivity|]. split; [|auto].
              right. split; [exact L|]. destruct (stamp_len _ _ St) as [Ln|[Ln|Ln]]; rewrite Ln; cbn in Ic; lia.
Qed.

(** ** Heads of extensions *)
Lemma ext_head_writes : forall n, n < 2^32 -> writes (encodeExtLen n) (ext_head (short_ext n) n) /\ (forall k, sizeExtLen n k = u32 (k + len (ext_head (short_ext n) n))).
Proof.
  intros n B. unfold encodeExtLen, sizeExtLen, short_ext. change (2^32) with 4294967296 in B. change (2^8) with 256. change (2^16) with 65536.
  destruct (N.eqb_spec n 1) as [->|N1]; [split; [apply (set_uint_writes 1 0xd4)|reflexivity]|].
  destruct (N.eqb_spec n 2) as [->|N2]; [split; [apply (set_uint_writes 1 0xd5)|reflexivity]|].
  destruct (N.eqb_spec n 4) as [->|N4]; [split; [apply (set_uint_writes 1 0xd6)|reflexivity]|].
  destruct (N.eqb_spec n 8) as [->|N8]; [split; [apply (set_uint_writes 1 0xd7)|reflexivity]|].
  destruct (N.eqb_spec n 16) as [->|N16]; [split; [apply (set_uint_writes 1 0xd8)|reflexivity]|]. cbn [orb].
  destruct (N.leb_spec n 255) as [L|L]; [replace (n <? 256) with true by lia|replace (n <? 256) with false by lia; destruct (N.leb_spec n 65535) as [L2|L2]; [replace (n <? 65536) with true by lia|replace (n <? 65536) with false by lia]];
    (split; [|intro k; cbn [ext_head]; rewrite len_cons, be_len; reflexivity]); cbn [ext_head].
  - unfold u8. rewrite N.mod_small by lia. apply set_bytes_writes. rewrite len_cons, be_len. reflexivity.
  - unfold u16. rewrite N.mod_small by lia. apply set_bytes_writes. rewrite len_cons, be_len. reflexivity.
  - unfold u32. rewrite N.mod_small by lia. apply set_bytes_writes. rewrite len_cons, be_len. reflexivity.
Qed.
