(** Proofs about the reading of custom sections. *)
From Coq Require Import List NArith ZArith Lia Bool ZifyBool ZifyNat ZifyN.
From Verif Require Import Base BaseLemmas OperationsModel OperationsProofs CustomModel CustomSpec.
Import ListNotations.
Open Scope N_scope.
Ltac Zify.zify_post_hook ::= Z.div_mod_to_equations.

(** ** UTF-8 *)
Ltac ifs := repeat match goal with |- context [if ?b then _ else _] => let E := fresh "E" in destruct b eqn:E; try lia end.
Lemma andb_true_l' : forall a b, a = true -> a && b = b.
Proof. intros a b ->. reflexivity. Qed.

Lemma valid2 : forall q r l, 2 <= q < 32 -> r < 64 -> utf8_valid (0xC0 + q :: 0x80 + r :: l) = utf8_valid l.
Proof. intros. cbn [utf8_valid]. ifs. unfold cont. apply andb_true_l'. lia. Qed.
Lemma valid3 : forall q r s l, q < 16 -> r < 64 -> s < 64 -> (q = 0 -> 32 <= r) -> (q = 13 -> r < 32) -> utf8_valid (0xE0 + q :: 0x80 + r :: 0x80 + s :: l) = utf8_valid l.
Proof. intros. cbn [utf8_valid]. unfold cont. ifs; apply andb_true_l'; lia. Qed.
Lemma valid4 : forall q r s t l, q < 5 -> r < 64 -> s < 64 -> t < 64 -> (q = 0 -> 16 <= r) -> (q = 4 -> r < 16) -> utf8_valid (0xF0 + q :: 0x80 + r :: 0x80 + s :: 0x80 + t :: l) = utf8_valid l.
Proof. intros. cbn [utf8_valid]. unfold cont. ifs; apply andb_true_l'; lia. Qed.

Lemma valid_char : forall c l, scalar c -> utf8_valid (utf8_char c ++ l) = utf8_valid l.
Proof.
  intros c l H. unfold scalar in H. unfold utf8_char. destruct (N.ltb_spec c 0x80) as [A|A]; [|destruct (N.ltb_spec c 0x800) as [B|B]; [|destruct (N.ltb_spec c 0x10000) as [C|C]]]; cbn [app].
  - cbn [utf8_valid]. assert (E : c <? 0x80 = true) by lia. rewrite E. reflexivity.
  - apply valid2; lia.
  - apply valid3; lia.
  - apply valid4; lia.
Qed.

Lemma valid_back : forall n p, (length p <= n)%nat -> utf8_valid p = true -> utf8 p.
Proof.
  induction n as [|n IH]; intros p L V.
  - destruct p; [|cbn [length] in L; lia]. exists []. split; [constructor|reflexivity].
  - destruct p as [|a p1]; [exists []; split; [constructor|reflexivity]|]. cbn [length] in L. cbn [utf8_valid] in V.
    assert (K : forall c rest, scalar c -> (length rest <= n)%nat -> utf8_valid rest = true -> utf8 (utf8_char c ++ rest)).
    { intros c rest S L' V'. destruct (IH rest L' V') as (cs & F & ->). exists (c :: cs). split; [constructor; assumption|reflexivity]. }
    destruct (a <? 0x80) eqn:A.
    { assert (E : utf8_char a = [a]) by (unfold utf8_char; rewrite A; reflexivity). change (a :: p1) with ([a] ++ p1). rewrite <- E. apply K; [unfold scalar; lia|lia|exact V]. }
    destruct (a <? 0xC2) eqn:A2; [discriminate|]. unfold cont in V. destruct (a <=? 0xDF) eqn:A3.
    { destruct p1 as [|b p2]; [discriminate|]. cbn [length] in L. apply andb_true_iff in V as [V1 V2]. set (c := (a - 0xC0) * 64 + (b - 0x80)).
      assert (E : utf8_char c = [a; b]). { unfold utf8_char, c. ifs. f_equal; [lia|f_equal; lia]. }
      change (a :: b :: p2) with ([a; b] ++ p2). rewrite <- E. apply K; [unfold scalar, c; lia|lia|exact V2]. }
    destruct (a <=? 0xEF) eqn:A4.
    { destruct p1 as [|b [|c p3]]; try discriminate. cbn [length] in L. apply andb_true_iff in V as [V V4]. apply andb_true_iff in V as [V V3]. apply andb_true_iff in V as [V1 V2].
      set (x := (a - 0xE0) * 4096 + (b - 0x80) * 64 + (c - 0x80)).
      assert (B : 0x80 <= b <= 0xBF) by (destruct (a =? 0xE0), (a =? 0xED); lia). assert (B1 : a = 0xE0 -> 0xA0 <= b) by (destruct (a =? 0xE0) eqn:Q; lia). assert (B2 : a = 0xED -> b <= 0x9F) by (destruct (a =? 0xED) eqn:Q; lia). clear V1 V2.
      assert (X : 0x800 <= x < 0x10000 /\ (x < 0xD800 \/ 0xE000 <= x)) by (unfold x; lia).
      assert (E : utf8_char x = [a; b; c]). { assert (D1 : x / 4096 = a - 0xE0) by (unfold x; lia). assert (D2 : x / 64 mod 64 = b - 0x80) by (unfold x; lia). assert (D3 : x mod 64 = c - 0x80) by (unfold x; lia).
        unfold utf8_char. rewrite D1, D2, D3. clearbody x. ifs. f_equal; [lia|f_equal; [lia|f_equal; lia]]. }
      change (a :: b :: c :: p3) with ([a; b; c] ++ p3). rewrite <- E. apply K; [unfold scalar; clearbody x; lia|lia|exact V4]. }
    destruct (a <=? 0xF4) eqn:A5; [|discriminate].
    destruct p1 as [|b [|c [|d p4]]]; try discriminate. cbn [length] in L. apply andb_true_iff in V as [V V5]. apply andb_true_iff in V as [V V4]. apply andb_true_iff in V as [V V3]. apply andb_true_iff in V as [V1 V2].
    set (x := (a - 0xF0) * 262144 + (b - 0x80) * 4096 + (c - 0x80) * 64 + (d - 0x80)).
    assert (B : 0x80 <= b <= 0xBF) by (destruct (a =? 0xF0), (a =? 0xF4); lia). assert (B1 : a = 0xF0 -> 0x90 <= b) by (destruct (a =? 0xF0) eqn:Q; lia). assert (B2 : a = 0xF4 -> b <= 0x8F) by (destruct (a =? 0xF4) eqn:Q; lia). clear V1 V2.
    assert (X : 0x10000 <= x < 0x110000) by (unfold x; lia).
    assert (E : utf8_char x = [a; b; c; d]). { assert (D1 : x / 262144 = a - 0xF0) by (unfold x; lia). assert (D2 : x / 4096 mod 64 = b - 0x80) by (unfold x; lia). assert (D3 : x / 64 mod 64 = c - 0x80) by (unfold x; lia). assert (D4 : x mod 64 = d - 0x80) by (unfold x; lia).
      unfold utf8_char. rewrite D1, D2, D3, D4. clearbody x. ifs. f_equal; [lia|f_equal; [lia|f_equal; [lia|f_equal; lia]]]. }
    change (a :: b :: c :: d :: p4) with ([a; b; c; d] ++ p4). rewrite <- E. apply K; [unfold scalar; clearbody x; lia|lia|exact V5].
Qed.
Lemma valid_iff : forall p, utf8_valid p = true <-> utf8 p.
Proof.
  intro p. split; [apply (valid_back (length p)); lia|]. intros (cs & F & ->). induction F as [|c cs S F IH]; [reflexivity|]. cbn [flat_map]. rewrite valid_char by exact S. exact IH.
Qed.

(** ** LEB128 *)
Lemma leb_pos : forall e n, leb e n -> 1 <= len e.
Proof. intros e n H. destruct H; rewrite len_cons; lia. Qed.

Lemma or_add : forall ret b s, s <= 28 -> ret < 2^s -> b < 2^(32 - s) -> N.lor ret (u32 (N.shiftl b s)) = ret + 2^s * b.
Proof.
  intros ret b s S R B. unfold u32. rewrite N.mod_small.
  - rewrite N.lor_comm, lor_shiftl_add by exact R. lia.
  - rewrite N.shiftl_mul_pow2. replace (2^32) with (2^(32-s) * 2^s) by (rewrite <- N.pow_add_r; f_equal; lia). apply N.mul_lt_mono_pos_r; [|exact B]. apply N.neq_0_lt_0. apply N.pow_nonzero. discriminate.
Qed.

Lemma loop_iff : forall left i s ret r v n r', (left <= 5)%nat -> s + 7 * N.of_nat left = 35 -> ret < 2^s -> wf r ->
  decode_loop left i s ret r = Some (v, n, r') <-> exists e w, r = e ++ r' /\ leb e w /\ (length e <= left)%nat /\ ret + 2^s * w < 2^32 /\ v = ret + 2^s * w /\ n = i + len e.
Proof.
  induction left as [|left IH]; intros i s ret r v n r' L S R W.
  - cbn [decode_loop]. split; [discriminate|]. intros (e & w & _ & H & L' & _). apply leb_pos in H. unfold len in H. lia.
  - destruct r as [|b r1]; cbn [decode_loop].
    + split; [discriminate|]. intros (e & w & E & H & _). apply leb_pos in H. destruct e; [rewrite len_nil in H; lia|discriminate].
    + apply wf_cons in W as [W1 W2]. assert (Sle : s <= 28) by lia. destruct (b <? 0x80) eqn:B.
      * assert (T : (Nat.eqb (Datatypes.S left) 1 && (0 <? N.land b 0xf0) = false) <-> ret + 2^s * b < 2^32).
        { destruct left as [|left].
          - assert (s = 28) by lia. subst s. cbn [Nat.eqb andb]. assert (Q : (0 <? N.land b 0xf0) = (16 <=? b)).
            { clear - B. assert (C : forall x, x < 128 -> (0 <? N.land x 0xf0) = (16 <=? x)); [|apply C; lia]. intros x X. rewrite <- (N2Nat.id x) in *. assert (Y : (N.to_nat x < 128)%nat) by lia. clear X. revert Y. generalize (N.to_nat x). intro k. do 128 (destruct k as [|k]; [intros; reflexivity|]). intro. lia. }
            rewrite Q. change (2^28) with 268435456 in *. change (2^32) with 4294967296. lia.
          - change (Nat.eqb (Datatypes.S (Datatypes.S left)) 1) with false. cbn [andb]. split; [intros _|reflexivity].
            assert (M : 2^s <= 2^21) by (apply N.pow_le_mono_r; [discriminate|lia]). change (2^21) with 2097152 in M. change (2^32) with 4294967296. nia. }
        destruct (Nat.eqb (Datatypes.S left) 1 && (0 <? N.land b 0xf0)) eqn:Q.
        -- split; [discriminate|]. intros (e & w & E & H & L' & F & _). exfalso. destruct H as [b' H|b' e w H H']; [|cbn [app] in E; injection E as E _; lia]. cbn [app] in E. injection E as <- _. apply T in F. discriminate.
        -- assert (F : ret + 2^s * b < 2^32) by (apply T; reflexivity). assert (Bs : b < 2^(32 - s)).
           { assert (P : 2^32 = 2^(32-s) * 2^s) by (rewrite <- N.pow_add_r; f_equal; lia). rewrite P in F. assert (0 < 2^s) by (apply N.neq_0_lt_0; apply N.pow_nonzero; discriminate). nia. }
           rewrite or_add by assumption. split.
           ++ intro E. injection E as <- <- <-. exists [b], b. split; [reflexivity|split; [constructor; lia|split; [cbn [length]; lia|split; [exact F|split; [reflexivity|reflexivity]]]]].
           ++ intros (e & w & E & H & L' & F' & -> & ->). destruct H as [b' H|b' e w H H']; [|cbn [app] in E; injection E as E _; lia]. cbn [app] in E. injection E as <- <-. reflexivity.
      * assert (Lb : N.land b 0x7f = b - 128) by (change 0x7f with (2^7 - 1); rewrite land_ones_mod; change (2^7) with 128; lia). rewrite Lb.
        destruct left as [|left].
        { cbn [decode_loop]. split; [discriminate|]. intros (e & w & E & H & L' & _). destruct H as [b' H|b' e w H H']; [cbn [app] in E; injection E as <- _; lia|]. apply leb_pos in H'. cbn [length] in L'. unfold len in H'. lia. }
        assert (Sle' : s <= 21) by lia.
        assert (P25 : 2^11 <= 2^(32 - s)) by (apply N.pow_le_mono_r; [discriminate|lia]). change (2^11) with 2048 in P25.
        assert (Ps : 2^(s+7) = 2^s * 128) by (rewrite N.pow_add_r; reflexivity).
        rewrite or_add by (try assumption; lia). rewrite IH; [|lia|lia|rewrite Ps; nia|exact W2]. split.
        -- intros (e & w & -> & H & L' & F & -> & ->). exists (b :: e), (b - 128 + 128 * w). rewrite Ps in *. split; [reflexivity|split; [constructor; [lia|exact H]|split; [cbn [length]; lia|split; [lia|split; [lia|rewrite len_cons; lia]]]]].
        -- intros (e & w & E & H & L' & F & -> & ->). destruct H as [b' H|b' e w H H']; [cbn [app] in E; injection E as <- _; lia|]. cbn [app] in E. injection E as <- ->. exists e, w. rewrite Ps. split; [reflexivity|split; [exact H'|split; [cbn [length] in L'; lia|split; [lia|split; [lia|rewrite len_cons; lia]]]]].
Qed.
Lemma decode_iff : forall r v n r', wf r -> DecodeUint32 r = Some (v, n, r') <-> exists e, r = e ++ r' /\ u32_enc e v /\ n = len e.
Proof.
  intros r v n r' W. unfold DecodeUint32. rewrite loop_iff; [|lia|reflexivity|reflexivity|exact W]. change (2^0) with 1. split.
  - intros (e & w & E & H & L & F & -> & ->). exists e. rewrite !N.add_0_l, N.mul_1_l in *. split; [exact E|split; [split; [exact H|split; assumption]|reflexivity]].
  - intros (e & E & (H & F & L) & ->). exists e, v. rewrite !N.add_0_l, N.mul_1_l. auto 10.
Qed.
Lemma u32_enc_len : forall e v, u32_enc e v -> 1 <= len e <= 5.
Proof. intros e v (H & _ & L). apply leb_pos in H. unfold len in *. lia. Qed.

(** ** Names *)
Lemma decodeUTF8_app : forall e name rest, wf (e ++ name ++ rest) -> u32_enc e (len name) -> utf8 name ->
  decodeUTF8 (e ++ name ++ rest) = Ret (name, u32 (len name + len e), rest).
Proof.
  intros e name rest W U V. unfold decodeUTF8. assert (D := proj2 (decode_iff _ (len name) (len e) (name ++ rest) W) (ex_intro _ e (conj eq_refl (conj U eq_refl)))). rewrite D.
  unfold read_full. rewrite len_app. assert (E : len name <=? len name + len rest = true) by lia. rewrite E.
  rewrite firstn_len_app, skipn_len_app by (unfold len; lia). rewrite (proj2 (valid_iff name) V). cbn [negb]. assert (L := u32_enc_len _ _ U). unfold u32 at 2. rewrite (N.mod_small (len e)) by (change (2^32) with 4294967296; lia). reflexivity.
Qed.
Lemma decodeUTF8_inv : forall r name ns r', wf r -> decodeUTF8 r = Ret (name, ns, r') -> exists e, r = e ++ name ++ r' /\ u32_enc e (len name) /\ utf8 name /\ ns = u32 (len name + len e).
Proof.
  intros r name ns r' W E. unfold decodeUTF8 in E. destruct (DecodeUint32 r) as [[[size ss] r1]|] eqn:D; [|discriminate]. apply decode_iff in D as (e & -> & U & ->); [|exact W].
  unfold read_full in E. destruct (size <=? len r1) eqn:L; [|discriminate]. destruct (utf8_valid (firstn (N.to_nat size) r1)) eqn:V; [|discriminate]. cbn [negb] in E. injection E as <- <- <-. apply valid_iff in V.
  assert (Ln : len (firstn (N.to_nat size) r1) = size) by (rewrite len_firstn; lia). exists e. rewrite firstn_skipn, Ln. assert (Le := u32_enc_len _ _ U). unfold u32 at 2. rewrite (N.mod_small (len e)) by (change (2^32) with 4294967296; lia). auto.
Qed.

(** ** Sections *)
Definition found (wanted : list bytes) (ss : list section) (sections : list (bytes * bytes)) (n : bytes) : option bytes :=
  match (if in_dec (list_eq_dec N.eq_dec) n wanted then last_of n ss else None) with Some d => Some d | None => section_of sections n end.

Lemma wanted_iff : forall w n, is_wanted w n = true <-> In n w.
Proof.
  intros w n. unfold is_wanted. rewrite existsb_exists. split; [intros (x & I & E); apply bytes_equal_iff in E; subst; exact I|]. intro I. exists n. split; [exact I|]. apply bytes_equal_iff. reflexivity.
Qed.
Definition last_from (n : bytes) (ss : list section) (acc : option bytes) : option bytes :=
  fold_left (fun acc s => match s with Custom m d => if list_eq_dec N.eq_dec m n then Some d else acc | Other _ _ => acc end) ss acc.
Lemma last_from_eq : forall n ss acc, last_from n ss acc = match last_of n ss with Some d => Some d | None => acc end.
Proof.
  intros n ss. unfold last_of. fold (last_from n ss None). induction ss as [|s ss IH]; intro acc; [reflexivity|]. unfold last_from in *. cbn [fold_left]. destruct s as [m d|id c]; [|apply IH].
  rewrite (IH (if list_eq_dec N.eq_dec m n then Some d else acc)), (IH (if list_eq_dec N.eq_dec m n then Some d else None)). destruct (fold_left _ ss None); [reflexivity|]. destruct (list_eq_dec N.eq_dec m n); reflexivity.
Qed.
Lemma last_cons : forall n s ss, last_of n (s :: ss) = match last_of n ss with Some d => Some d | None => match s with Custom m d => if list_eq_dec N.eq_dec m n then Some d else None | Other _ _ => None end end.
Proof. intros. unfold last_of at 1. fold (last_from n (s :: ss) None). unfold last_from. cbn [fold_left]. fold (last_from n ss (match s with Custom m d => if list_eq_dec N.eq_dec m n then Some d else None | Other _ _ => None end)). apply last_from_eq. Qed.
Lemma found_wanted : forall w name d ss sec n, In name w -> found w ss ((name, d) :: sec) n = found w (Custom name d :: ss) sec n.
Proof.
  intros w name d ss sec n I. unfold found. rewrite last_cons. cbn [section_of]. destruct (in_dec (list_eq_dec N.eq_dec) n w) as [J|J].
  - destruct (last_of n ss); [reflexivity|]. destruct (list_eq_dec N.eq_dec name n) as [->|N]; [rewrite (proj2 (bytes_equal_iff n n) eq_refl); reflexivity|].
    destruct (bytes_equal name n) eqn:E; [apply bytes_equal_iff in E; contradiction|reflexivity].
  - destruct (bytes_equal name n) eqn:E; [apply bytes_equal_iff in E; subst; contradiction|reflexivity].
Qed.
Lemma found_unwanted : forall w s ss sec n, (match s with Custom name _ => ~ In name w | Other _ _ => True end) -> found w ss sec n = found w (s :: ss) sec n.
Proof.
  intros w s ss sec n I. unfold found. rewrite last_cons. destruct (in_dec (list_eq_dec N.eq_dec) n w) as [J|J]; [|reflexivity]. destruct (last_of n ss); [reflexivity|].
  destruct s as [name d|id c]; [|reflexivity]. destruct (list_eq_dec N.eq_dec name n) as [->|N]; [contradiction|reflexivity].
Qed.

Lemma ends_cons : forall w s ss, ends_empty w (s :: ss) -> (ss = [] /\ exists n, s = Custom n [] /\ In n w) \/ ends_empty w ss.
Proof.
  intros w s ss (ss' & n & E & I). destruct ss' as [|s' ss']; cbn [app] in E; injection E as -> ->; [left; split; [reflexivity|exists n; auto]|right; exists ss', n; auto].
Qed.
Lemma ends_more : forall w s ss, ends_empty w ss -> ends_empty w (s :: ss).
Proof. intros w s ss (ss' & n & -> & I). exists (s :: ss'), n. auto. Qed.

Theorem read_ok : forall r ss, sections_of r ss -> forall fuel w sec, (length r < fuel)%nat -> wf r -> ~ ends_empty w ss ->
  exists m, read_sections fuel w sec r = Ret m /\ forall n, section_of m n = found w ss sec n.
Proof.
  intros r ss H. induction H as [|s id content e rest ss C U H IH]; intros fuel w sec L W NE.
  - destruct fuel; [cbn in L; lia|]. exists sec. split; [reflexivity|]. intro n. unfold found. destruct (in_dec (list_eq_dec N.eq_dec) n w); reflexivity.
  - destruct fuel as [|fuel]; [cbn in L; lia|]. cbn [length] in L. rewrite !app_length in L. apply wf_cons in W as [_ W]. assert (W2 := W). apply wf_app in W2 as [_ W2]. assert (W3 := W2). apply wf_app in W3 as [_ W3].
    cbn [read_sections]. rewrite (proj2 (decode_iff _ (len content) (len e) (content ++ rest) W) (ex_intro _ e (conj eq_refl (conj U eq_refl)))).
    assert (NE' : ~ ends_empty w ss) by (intro X; exact (NE (ends_more w s ss X))).
    destruct C as [name data e' U' V|id content N].
    + change (0 =? 0) with true. cbv iota. rewrite <- !app_assoc. rewrite <- !app_assoc in W2. rewrite decodeUTF8_app by assumption. cbn [bind].
      assert (B : len (e' ++ name ++ data) < 2^32) by (destruct U as (_ & B & _); exact B). rewrite !len_app in *. assert (Lu : u32 (len name + len e') = len name + len e') by (apply N.mod_small; lia). rewrite Lu.
      assert (Q : len e' + (len name + len data) <? len name + len e' = false) by lia. rewrite Q. replace (len e' + (len name + len data) - (len name + len e')) with (len data) by lia.
      assert (CL : check_length (len e' + (len name + len data)) (len e' + (len name + (len data + len rest))) (len rest) = Ret tt) by (unfold check_length; assert (Z0 : len e' + (len name + len data) =? len e' + (len name + (len data + len rest)) - len rest = true) by lia; rewrite Z0; reflexivity).
      destruct (is_wanted w name) eqn:Wn.
      * apply wanted_iff in Wn. unfold read_some. destruct (data ++ rest) as [|x l] eqn:Dr.
        { exfalso. apply app_eq_nil in Dr as [-> ->]. inversion H; subst. apply NE. exists [], name. auto. }
        rewrite <- Dr. rewrite firstn_len_app, skipn_len_app by (unfold len; lia). rewrite !N.sub_diag. cbn [N.to_nat repeat]. rewrite app_nil_r. cbn [bind]. rewrite CL. cbn [bind].
        destruct (IH fuel w ((name, data) :: sec)) as (m & E & X); [lia|exact W3|exact NE'|]. exists m. split; [exact E|]. intro n. rewrite X. apply found_wanted. exact Wn.
      * assert (Wn' : ~ In name w) by (intro X; apply wanted_iff in X; congruence). unfold copy_discard. rewrite len_app. assert (Q2 : len data <=? len data + len rest = true) by lia. rewrite Q2. rewrite skipn_len_app by (unfold len; lia). rewrite CL. cbn [bind].
        destruct (IH fuel w sec) as (m & E & X); [lia|exact W3|exact NE'|]. exists m. split; [exact E|]. intro n. rewrite X. apply found_unwanted. exact Wn'.
    + assert (Q : id =? 0 = false) by lia. rewrite Q. unfold copy_discard. rewrite len_app. assert (Q2 : len content <=? len content + len rest = true) by lia. rewrite Q2. rewrite skipn_len_app by (unfold len; lia).
      unfold check_length. assert (Q3 : len content =? len content + len rest - len rest = true) by lia. rewrite Q3. cbn [negb bind].
      destruct (IH fuel w sec) as (m & E & X); [lia|exact W3|exact NE'|]. exists m. split; [exact E|]. intro n. rewrite X. apply found_unwanted. exact I.
Qed.

Theorem read_inv : forall fuel w sec r m, wf r -> read_sections fuel w sec r = Ret m -> exists ss, sections_of r ss /\ ~ ends_empty w ss.
Proof.
  induction fuel as [|fuel IH]; intros w sec r m W E; [discriminate|]. destruct r as [|id r1]; [exists []; split; [constructor|]; intros (ss' & n & X & _); destruct ss'; discriminate|].
  cbn [read_sections] in E. apply wf_cons in W as [Wi W]. destruct (DecodeUint32 r1) as [[[size ssz] r2]|] eqn:D; [|discriminate]. apply decode_iff in D as (e & -> & U & ->); [|exact W]. apply wf_app in W as [We W2].
  assert (P32 : size < 2^32) by (destruct U as (_ & B & _); exact B).
  destruct (N.eqb_spec id 0) as [->|Nid].
  - apply bind_ret in E as ([[name ns] r3] & D & E). apply decodeUTF8_inv in D as (e' & -> & U' & V & ->); [|exact W2]. destruct (size <? u32 (len name + len e')) eqn:Sm; [discriminate|]. apply wf_app in W2 as [We' W3]. apply wf_app in W3 as [Wn W3].
    set (limit := size - u32 (len name + len e')) in *. assert (Ule : u32 (len name + len e') <= len name + len e') by (unfold u32; apply N.mod_le; discriminate).
    assert (Key : size = len (e' ++ name ++ r3) - (len r3 - limit) -> limit <= len r3 /\ size = len e' + len name + limit).
    { rewrite !len_app. intro X. assert (Us : len name + len e' < 2^32 -> u32 (len name + len e') = len name + len e') by (intro; apply N.mod_small; assumption). destruct (N.le_gt_cases (len name + len e') size) as [Y|Y]; [rewrite Us in * by lia|]; unfold limit in *; lia. }
    assert (Fin : limit <= len r3 -> size = len e' + len name + limit -> forall ss, sections_of (skipn (N.to_nat limit) r3) ss -> sections_of (0 :: e ++ e' ++ name ++ r3) (Custom name (firstn (N.to_nat limit) r3) :: ss)).
    { intros K1 K2 ss S. replace (e' ++ name ++ r3) with ((e' ++ name ++ firstn (N.to_nat limit) r3) ++ skipn (N.to_nat limit) r3) by (rewrite <- !app_assoc, firstn_skipn; reflexivity).
      apply sections_cons; [constructor; assumption| |exact S]. replace (len (e' ++ name ++ firstn (N.to_nat limit) r3)) with size; [exact U|]. rewrite !len_app, len_firstn. lia. }
    destruct (is_wanted w name) eqn:Wd.
    + destruct (read_some limit r3) as [[data r4]|] eqn:R; [|discriminate]. unfold read_some in R. destruct r3 as [|x l] eqn:Er3; [discriminate|]. rewrite <- Er3 in *. injection R as <- <-.
      apply bind_ret in E as ([] & C & E). unfold check_length in C. destruct (size =? len (e' ++ name ++ r3) - len (skipn (N.to_nat limit) r3)) eqn:Q; [|discriminate]. rewrite len_skipn in Q. rewrite N2Nat.id in Q. apply N.eqb_eq in Q. apply Key in Q as [K1 K2].
      destruct (IH _ _ _ _ (wf_skipn _ _ W3) E) as (ss & S & NE). eexists. split; [apply Fin; eassumption|]. intro X. apply ends_cons in X as [[-> (n & Y & _)]|X]; [|exact (NE X)].
      injection Y as _ Y. inversion S as [Z0|]. assert (L0 : len (skipn (N.to_nat limit) r3) = 0) by (rewrite <- Z0; reflexivity). assert (L1 : len (firstn (N.to_nat limit) r3) = 0) by (rewrite Y; reflexivity). rewrite len_skipn in L0. rewrite len_firstn in L1. rewrite Er3, len_cons in *. lia.
    + destruct (copy_discard limit r3) as [r4|] eqn:R; [|discriminate]. unfold copy_discard in R. destruct (limit <=? len r3) eqn:Q1; [|discriminate]. injection R as <-.
      apply bind_ret in E as ([] & C & E). unfold check_length in C. destruct (size =? len (e' ++ name ++ r3) - len (skipn (N.to_nat limit) r3)) eqn:Q; [|discriminate]. rewrite len_skipn in Q. rewrite N2Nat.id in Q. apply N.eqb_eq in Q. apply Key in Q as [K1 K2].
      destruct (IH _ _ _ _ (wf_skipn _ _ W3) E) as (ss & S & NE). eexists. split; [apply Fin; eassumption|]. intro X. apply ends_cons in X as [[-> (n & Y & J)]|X]; [|exact (NE X)]. injection Y as -> _. apply wanted_iff in J. congruence.
  - destruct (copy_discard size r2) as [r4|] eqn:R; [|discriminate]. unfold copy_discard in R. destruct (size <=? len r2) eqn:Q1; [|discriminate]. injection R as <-. apply bind_ret in E as ([] & C & E).
    destruct (IH _ _ _ _ (wf_skipn _ _ W2) E) as (ss & S & NE). exists (Other id (firstn (N.to_nat size) r2) :: ss). split.
    + rewrite <- (firstn_skipn (N.to_nat size) r2) at 1. apply sections_cons; [constructor; exact Nid| |exact S]. rewrite len_firstn. replace (N.min (N.of_nat (N.to_nat size)) (len r2)) with size by lia. exact U.
    + intro X. apply ends_cons in X as [[-> (n & Y & J)]|X]; [discriminate|exact (NE X)].
Qed.

Theorem read_total : forall fuel w sec r, (length r < fuel)%nat -> wf r -> read_sections fuel w sec r <> Panic.
Proof.
  induction fuel as [|fuel IH]; intros w sec r L W E; [lia|]. destruct r as [|id r1]; [discriminate|]. cbn [read_sections length] in *. apply wf_cons in W as [Wi W]. destruct (DecodeUint32 r1) as [[[size ssz] r2]|] eqn:D; [|discriminate].
  apply decode_iff in D as (e & -> & U & ->); [|exact W]. apply wf_app in W as [We W2]. rewrite app_length in L. apply u32_enc_len in U.
  assert (Chk : forall a b c (k : unit -> outcome cs_err (list (bytes * bytes))), bind (check_length a b c) k = Panic -> k tt = Panic) by (intros a b c k; unfold check_length; destruct (negb (a =? b - c)); cbn [bind]; [discriminate|auto]).
  destruct (id =? 0).
  - destruct (decodeUTF8 r2) as [[[name ns] r3]|x|] eqn:D; cbn [bind] in E; [|discriminate|].
    + apply decodeUTF8_inv in D as (e' & -> & U' & V & ->); [|exact W2]. destruct (size <? u32 (len name + len e')); [discriminate|]. apply wf_app in W2 as [We' W3]. apply wf_app in W3 as [Wn W3]. rewrite !app_length in L.
      destruct (is_wanted w name).
      * destruct (read_some (size - u32 (len name + len e')) r3) as [[data r4]|] eqn:R; [|discriminate]. unfold read_some in R. destruct r3 as [|x l] eqn:Er3; [discriminate|]. rewrite <- Er3 in *. injection R as <- <-. apply Chk in E. revert E. apply IH; [rewrite skipn_length; lia|apply wf_skipn; exact W3].
      * destruct (copy_discard (size - u32 (len name + len e')) r3) as [r4|] eqn:R; [|discriminate]. unfold copy_discard in R. destruct (_ <=? _); [|discriminate]. injection R as <-. apply Chk in E. revert E. apply IH; [rewrite skipn_length; lia|apply wf_skipn; exact W3].
    + unfold decodeUTF8 in D. destruct (DecodeUint32 r2) as [[[? ?] ?]|]; [|discriminate]. destruct (read_full _ _) as [[? ?]|]; [|discriminate]. destruct (negb _); discriminate.
  - destruct (copy_discard size r2) as [r4|] eqn:R; [|discriminate]. unfold copy_discard in R. destruct (_ <=? _); [|discriminate]. injection R as <-. apply Chk in E. revert E. apply IH; [rewrite skipn_length; lia|apply wf_skipn; exact W2].
Qed.

(** ** Read *)
Lemma read_head : forall rest names, Read ([0x00; 0x61; 0x73; 0x6D] ++ [0x01; 0x00; 0x00; 0x00] ++ rest) names = read_sections (S (length rest)) names [] rest.
Proof.
  intros rest names. unfold Read, read_full. cbn [app]. rewrite !len_cons. assert (Q : 4 <=? 1 + (1 + (1 + (1 + (1 + (1 + (1 + (1 + len rest))))))) = true) by lia. rewrite Q. change (N.to_nat 4) with 4%nat. cbn [firstn skipn].
  change (bytes_equal [0x00; 0x61; 0x73; 0x6D] wasm_magic) with true. cbn [negb]. rewrite !len_cons. assert (Q2 : 4 <=? 1 + (1 + (1 + (1 + len rest))) = true) by lia. rewrite Q2. cbn [firstn skipn]. change (bytes_equal [0x01; 0x00; 0x00; 0x00] wasm_version) with true. reflexivity.
Qed.
Lemma read_head_inv : forall data names r, Read data names = r -> (exists rest, data = [0x00; 0x61; 0x73; 0x6D] ++ [0x01; 0x00; 0x00; 0x00] ++ rest) \/ (exists e, r = Fail e /\ (e = ErrInvalidMagicNumber \/ e = ErrInvalidVersion)).
Proof.
  intros data names r <-. unfold Read, read_full. destruct (4 <=? len data) eqn:L; [|right; eauto]. change (N.to_nat 4) with 4%nat. destruct (bytes_equal (firstn 4 data) wasm_magic) eqn:M; [|right; eexists; split; [reflexivity|auto]]. cbn [negb].
  destruct (4 <=? len (skipn 4 data)) eqn:L2; [|right; eauto]. destruct (bytes_equal (firstn 4 (skipn 4 data)) wasm_version) eqn:V; [|right; eexists; split; [reflexivity|auto]].
  left. apply bytes_equal_iff in M. apply bytes_equal_iff in V. exists (skipn 4 (skipn 4 data)). change [0; 97; 115; 109] with wasm_magic. change [1; 0; 0; 0] with wasm_version. rewrite <- M, <- V, !firstn_skipn. reflexivity.
Qed.
Lemma wf_8 : forall a rest, wf (a ++ [0x01; 0x00; 0x00; 0x00] ++ rest) -> wf rest.
Proof. intros a rest W. apply wf_app in W as [_ W]. apply wf_app in W as [_ W]. exact W. Qed.

Theorem contents_proof : forall data names ss, wf data -> module_of data ss -> ~ ends_empty names ss ->
  exists m, Read data names = Ret m /\ forall n, section_of m n = if in_dec (list_eq_dec N.eq_dec) n names then last_of n ss else None.
Proof.
  intros data names ss W (rest & -> & S) NE. rewrite read_head. destruct (read_ok rest ss S (Datatypes.S (length rest)) names []) as (m & E & X); [lia|apply wf_8 in W; exact W|exact NE|].
  exists m. split; [exact E|]. intro n. rewrite X. unfold found. cbn [section_of]. destruct (if in_dec _ n names then last_of n ss else None); reflexivity.
Qed.
Theorem accepts_proof : forall data names, wf data -> (exists m, Read data names = Ret m) <-> exists ss, module_of data ss /\ ~ ends_empty names ss.
Proof.
  intros data names W. split.
  - intros (m & E). destruct (read_head_inv _ _ _ E) as [(rest & ->)|(e & X & _)]; [|discriminate]. rewrite read_head in E. destruct (read_inv _ _ _ _ _ (wf_8 _ _ W) E) as (ss & S & NE). exists ss. split; [exists rest; auto|exact NE].
  - intros (ss & M & NE). destruct (contents_proof data names ss W M NE) as (m & E & _). exists m. exact E.
Qed.
Theorem total_proof : forall data names, wf data -> Read data names <> Panic.
Proof.
  intros data names W E. destruct (read_head_inv _ _ _ E) as [(rest & ->)|(e & X & _)]; [|discriminate]. rewrite read_head in E. revert E. apply read_total; [lia|exact (wf_8 _ _ W)].
Qed.

(** A module is made of its sections in one way only. *)
Lemma leb_prefix : forall e n, leb e n -> forall e' n' r r', leb e' n' -> e ++ r = e' ++ r' -> e = e' /\ n = n' /\ r = r'.
Proof.
  intros e n H. induction H as [b B|b e n B H IH]; intros e' n' r r' H' E.
  - destruct H' as [b' B'|b' e' n' B' H']; cbn [app] in E; injection E as E1 E2; [subst; auto|lia].
  - destruct H' as [b' B'|b' e' n' B' H']; cbn [app] in E; injection E as E1 E2; [lia|]. destruct (IH _ _ _ _ H' E2) as (-> & -> & ->). subst. auto.
Qed.
Theorem unique_sections : forall r ss, sections_of r ss -> forall ss', sections_of r ss' -> ss = ss'.
Proof.
  intros r ss H. induction H as [|s id content e rest ss C U H IH]; intros ss' H'; [inversion H'; reflexivity|].
  inversion H' as [|s' id' content' e' rest' ss'' C' U' H'' E1 E2]; subst. match goal with X : e' ++ content' ++ rest' = _ |- _ => rename X into Q0 end. destruct (leb_prefix _ _ (proj1 U') _ _ _ _ (proj1 U) Q0) as (-> & Ln & E3).
  destruct (app_eq_len _ _ _ _ Ln E3) as [-> ->]. f_equal; [|auto].
  destruct C as [name data e1 U1 V1|id content N]; inversion C' as [name' data' e2 U2 V2 Q1 Q2 Q3|id' content' N' Q1 Q2 Q3]; subst; try contradiction; [|reflexivity].
  destruct (leb_prefix _ _ (proj1 U2) _ _ _ _ (proj1 U1) Q3) as (-> & Ln' & E4). destruct (app_eq_len _ _ _ _ Ln' E4) as [-> ->]. reflexivity.
Qed.
Theorem unique_proof : forall data ss ss', module_of data ss -> module_of data ss' -> ss = ss'.
Proof. intros data ss ss' (r & -> & H) (r' & E & H'). apply app_inv_head in E. apply app_inv_head in E. subst. exact (unique_sections _ _ H _ H'). Qed.
Theorem rejects_proof : forall data names, wf data -> (exists e, Read data names = Fail e) <-> ~ exists ss, module_of data ss /\ ~ ends_empty names ss.
Proof.
  intros data names W. rewrite <- accepts_proof by exact W. destruct (Read data names) as [m|e|] eqn:E.
  - split; [intros (e & X); discriminate|]. intro X. exfalso. apply X. exists m. reflexivity.
  - split; [intros _ (m & X); discriminate|]. intros _. exists e. reflexivity.
  - exfalso. exact (total_proof _ _ W E).
Qed.
Theorem ends_empty_proof : forall data names ss, wf data -> module_of data ss -> ends_empty names ss -> exists e, Read data names = Fail e.
Proof. intros data names ss W M X. apply rejects_proof; [exact W|]. intros (ss' & M' & N). apply N. rewrite (unique_proof _ _ _ M' M). exact X. Qed.

(** ** The first eight bytes *)
Definition header_err (e : cs_err) : bool := match e with ErrInvalidMagicNumber | ErrInvalidVersion => true | _ => false end.
Lemma sections_err : forall fuel w sec r e, read_sections fuel w sec r = Fail e -> header_err e = false.
Proof.
  induction fuel as [|fuel IH]; intros w sec r e H; [discriminate|]. cbn [read_sections] in H. destruct r as [|id r1]; [discriminate|].
  destruct (DecodeUint32 r1) as [[[size n] r2]|]; [|injection H as <-; reflexivity].
  assert (C : forall size a b sec r4, (do _ <- check_length size a b; read_sections fuel w sec r4) = Fail e -> header_err e = false).
  { intros size0 a b sec0 r4 Q. unfold check_length in Q. destruct (negb _); cbn [bind] in Q; [injection Q as <-; reflexivity|apply (IH _ _ _ _ Q)]. }
  destruct (id =? 0).
  - unfold decodeUTF8 in H. destruct (DecodeUint32 r2) as [[[sz n2] r3]|]; [|injection H as <-; reflexivity]. destruct (read_full sz r3) as [[nm r4]|]; [|injection H as <-; reflexivity].
    destruct (negb (utf8_valid nm)); [injection H as <-; reflexivity|]. cbn [bind] in H. destruct (size <? _); [injection H as <-; reflexivity|].
    destruct (is_wanted w nm); [destruct (read_some _ _) as [[d r5]|]|destruct (copy_discard _ _) as [r5|]]; try (injection H as <-; reflexivity); apply (C _ _ _ _ _ H).
  - destruct (copy_discard size r2) as [r5|]; [|injection H as <-; reflexivity]. apply (C _ _ _ _ _ H).
Qed.
Lemma read_full_4 : forall r a b, read_full 4 r = Some (a, b) <-> r = a ++ b /\ length a = 4%nat.
Proof.
  intros r a b. unfold read_full. destruct (4 <=? len r) eqn:L.
  - apply N.leb_le in L. assert (K : N.to_nat 4 = 4%nat) by reflexivity. split.
    + intro Q. assert (Qa : firstn (N.to_nat 4) r = a) by congruence. assert (Qb : skipn (N.to_nat 4) r = b) by congruence. clear Q. rewrite <- Qa, <- Qb. split; [symmetry; apply firstn_skipn|]. rewrite firstn_length_le; [exact K|]. unfold len in L. lia.
    + intros (-> & La). rewrite K, <- La, firstn_app, Nat.sub_diag, firstn_all, skipn_app, Nat.sub_diag, skipn_all. cbn. rewrite app_nil_r. reflexivity.
  - apply N.leb_gt in L. split; [discriminate|]. intros (-> & La). unfold len in L. rewrite app_length, La in L. lia.
Qed.
Lemma app_same : forall (a b x y : bytes), length a = length b -> a ++ x = b ++ y -> a = b.
Proof. induction a as [|c a IH]; intros [|d b] x y L Q; try discriminate L; [reflexivity|]. cbn in L, Q. injection Q as -> Q. f_equal. apply (IH b x y); [lia|exact Q]. Qed.
Theorem header_proof : forall data names,
  (Read data names = Fail ErrInvalidMagicNumber <-> ~ exists rest, data = [0x00; 0x61; 0x73; 0x6D] ++ rest) /\
  (Read data names = Fail ErrInvalidVersion <-> exists rest, data = [0x00; 0x61; 0x73; 0x6D] ++ rest /\ ~ exists rest', rest = [0x01; 0x00; 0x00; 0x00] ++ rest').
Proof.
  intros data names. unfold Read. change [0x00; 0x61; 0x73; 0x6D] with wasm_magic. change [0x01; 0x00; 0x00; 0x00] with wasm_version.
  destruct (read_full 4 data) as [[m r]|] eqn:R1.
  - apply read_full_4 in R1 as (-> & Lm). destruct (bytes_equal m wasm_magic) eqn:B; cbn [negb].
    + apply bytes_equal_iff in B as ->. destruct (read_full 4 r) as [[v r']|] eqn:R2.
      * apply read_full_4 in R2 as (-> & Lv). destruct (bytes_equal v wasm_version) eqn:B; cbn [negb].
        -- apply bytes_equal_iff in B as ->. split; split.
           ++ intro Q. apply sections_err in Q. discriminate Q.
           ++ intro Q. destruct Q. eexists. reflexivity.
           ++ intro Q. apply sections_err in Q. discriminate Q.
           ++ intros (rest & Q & N). apply app_inv_head in Q as <-. destruct N. eexists. reflexivity.
        -- split; split; try discriminate; intro Q.
           ++ destruct Q. eexists. reflexivity.
           ++ eexists. split; [reflexivity|]. intros (r3 & Q3). clear Q. rename Q3 into Q. assert (X : v = wasm_version) by (apply (fun L => app_same _ _ _ _ L Q); rewrite Lv; reflexivity).
              rewrite X in B. discriminate B.
           ++ reflexivity.
      * split; split; try discriminate; intro Q.
        -- destruct Q. eexists. reflexivity.
        -- eexists. split; [reflexivity|]. intros (r3 & ->). assert (X : read_full 4 (wasm_version ++ r3) = Some (wasm_version, r3)) by (apply read_full_4; auto). rewrite X in R2. discriminate R2.
        -- reflexivity.
    + assert (NM : ~ exists rest, m ++ r = wasm_magic ++ rest).
      { intros (r3 & Q). assert (X : m = wasm_magic) by (apply (fun L => app_same _ _ _ _ L Q); rewrite Lm; reflexivity).
        rewrite X in B. discriminate B. }
      split; split; try discriminate; auto. intros (rest & Q & _). destruct NM. exists rest. exact Q.
  - assert (NM : ~ exists rest, data = wasm_magic ++ rest).
    { intros (r3 & ->). assert (X : read_full 4 (wasm_magic ++ r3) = Some (wasm_magic, r3)) by (apply read_full_4; auto). rewrite X in R1. discriminate R1. }
    split; split; try discriminate; auto. intros (rest & Q & _). destruct NM. exists rest. exact Q.
Qed.
