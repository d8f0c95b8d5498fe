From Coq Require Import List NArith ZArith Lia Bool ZifyBool ZifyNat ZifyN.
From Verif Require Import Base BaseLemmas OperationsModel MsgpackModel MsgpackSpec MsgpackReadSpec MsgpackIOProofs MsgpackProofs
  MsgpackReadProofs MsgpackPropsProofs MsgpackAcceptProofs ConvertModel ConvertSpec.
Import ListNotations.

(** ** Integers *)
Lemma convert_becomes : forall t v, (0 < i_bits t)%Z -> becomes (i_signed t) (i_bits t) v (convert t v).
Proof.
  intros [s b] v B. cbn [i_signed i_bits] in *. unfold becomes, in_type, convert. cbn [i_signed i_bits].
  assert (P : (2 ^ b = 2 * 2 ^ (b - 1))%Z) by (rewrite <- Z.pow_succ_r by lia; f_equal; lia).
  assert (Q : (0 < 2 ^ (b - 1))%Z) by (apply Z.pow_pos_nonneg; lia).
  pose proof (Z.mod_pos_bound v (2 ^ b) ltac:(lia)) as M. pose proof (Z.div_mod v (2 ^ b) ltac:(lia)) as D.
  destruct s; cbn [andb].
  - destruct (Z.leb_spec (2 ^ (b - 1)) (v mod 2 ^ b)).
    + split; [lia|]. exists (v / 2 ^ b + 1)%Z. lia.
    + split; [lia|]. exists (v / 2 ^ b)%Z. lia.
  - split; [lia|]. exists (v / 2 ^ b)%Z. lia.
Qed.
Lemma becomes_unique : forall s b v r r', (0 < b)%Z -> becomes s b v r -> becomes s b v r' -> r = r'.
Proof.
  intros s b v r r' B [R [k K]] [R' [k' K']]. unfold in_type in *.
  assert (P : (2 ^ b = 2 * 2 ^ (b - 1))%Z) by (rewrite <- Z.pow_succ_r by lia; f_equal; lia).
  assert (Q : (0 < 2 ^ (b - 1))%Z) by (apply Z.pow_pos_nonneg; lia).
  assert (E : ((r - r') = (k' - k) * 2 ^ b)%Z) by lia.
  assert (k' = k) by (destruct s; nia). lia.
Qed.
Lemma convert_id : forall t v, (0 < i_bits t)%Z -> (convert t v = v <-> in_type (i_signed t) (i_bits t) v).
Proof.
  intros t v B. pose proof (convert_becomes t v B) as H. split.
  - intro E. destruct H as [H _]. rewrite E in H. exact H.
  - intro I. apply (becomes_unique (i_signed t) (i_bits t) v); [exact B|exact H|]. split; [exact I|]. exists 0%Z. lia.
Qed.
Lemma convert_back : forall t t' v, (0 < i_bits t)%Z -> (i_bits t <= i_bits t')%Z -> in_type (i_signed t) (i_bits t) v ->
  convert t (convert t' v) = v.
Proof.
  intros t t' v B B' I. pose proof (convert_becomes t' v ltac:(lia)) as [_ [k' K']].
  pose proof (convert_becomes t (convert t' v) B) as H.
  apply (becomes_unique (i_signed t) (i_bits t) (convert t' v)); [exact B|exact H|]. split; [exact I|].
  exists (- k' * 2 ^ (i_bits t' - i_bits t))%Z.
  assert (2 ^ i_bits t' = 2 ^ (i_bits t' - i_bits t) * 2 ^ i_bits t)%Z as E by (rewrite <- Z.pow_add_r by lia; f_equal; lia).
  rewrite E in K'. lia.
Qed.

(** ** Fields *)
Open Scope N_scope.
Lemma nillable_cases : forall {A} (m : M A) pre tail, fits pre tail -> room pre -> wf tail ->
  (exists rest, tail = 0xc0 :: rest /\ ReadNillable m (at_ pre tail) = Ret (None, at_ (pre ++ [0xc0]) rest)) \/
  ((forall rest, tail <> 0xc0 :: rest) /\ tail <> [] /\
   ReadNillable m (at_ pre tail) = match m (at_ pre tail) with Ret (a, d') => Ret (Some a, d') | Fail e => Fail e | Panic => Panic end) \/
  (tail = [] /\ exists e, ReadNillable m (at_ pre tail) = Fail e).
Proof.
  intros A m pre tail F R W. destruct tail as [|b rest].
  - right. right. split; [reflexivity|]. unfold ReadNillable, IsNextNil, peek8, rbind. unfold room in R.
    rewrite check_no by (assumption || (unfold len; cbn [length]; lia) || lia). eexists. reflexivity.
  - destruct (N.eq_dec b 0xc0) as [->|D].
    + left. exists rest. split; [reflexivity|]. exact (nillable_nil m pre rest F).
    + right. left. split; [intros r E; congruence|]. split; [discriminate|].
      unfold ReadNillable, IsNextNil, rbind at 1 2. rewrite peek8_at by assumption. unfold FormatNil.
      destruct (N.eqb_spec b 0xc0); [congruence|]. unfold rret at 1. unfold rbind.
      destruct (m (at_ pre (b :: rest))) as [[a d']|[e d']|]; reflexivity.
Qed.

(** If a reader returns exactly when one of the values of [H] stands there, and neither nil nor the end is one. *)
Lemma field_exact : forall {I T} (c : I -> T) (m : M I) (H : bytes -> I -> Prop) pre tail,
  fits pre tail -> room pre -> wf tail ->
  (forall v, (exists d', m (at_ pre tail) = Ret (v, d')) <-> H tail v) ->
  (forall rest v, ~ H (0xc0 :: rest) v) -> (forall v, ~ H [] v) ->
  (forall t e, field_nillable (Nillable c) m (at_ pre tail) = Ret (t, e) <-> exists v, H tail v /\ t = Some (c v) /\ e = None) /\
  (field_nillable (Nillable c) m (at_ pre tail) = Panic <-> ~ exists v, H tail v).
Proof.
  intros I T c m H pre tail F R W X N0 N1. unfold field_nillable.
  destruct (nillable_cases m pre tail F R W) as [(rest & -> & ->)|[(D & D' & ->)|(-> & e & ->)]].
  - split; [intros t e|]; cbn [Nillable].
    + split; [discriminate|]. intros (v & Hv & _). destruct (N0 _ _ Hv).
    + split; [|reflexivity]. intros _ (v & Hv). exact (N0 _ _ Hv).
  - destruct (m (at_ pre tail)) as [[a d']|[e d']|] eqn:E.
    + assert (Ha : H tail a) by (apply X; eauto).
      assert (U : forall v, H tail v -> v = a) by (intros v Hv; apply X in Hv as (d2 & E2); congruence).
      cbn [Nillable]. split.
      * intros t e. split.
        -- intro Q. exists a. split; [exact Ha|]. split; congruence.
        -- intros (v & Hv & -> & ->). rewrite (U v Hv). reflexivity.
      * split; [discriminate|]. intro Q. destruct Q. eauto.
    + assert (U : forall v, ~ H tail v) by (intros v Hv; apply X in Hv as (d2 & E2); congruence).
      cbn [Nillable]. split; [intros t e0; split; [discriminate|]|split; [|reflexivity]].
      * intros (v & Hv & _). destruct (U v Hv).
      * intros _ (v & Hv). exact (U v Hv).
    + assert (U : forall v, ~ H tail v) by (intros v Hv; apply X in Hv as (d2 & E2); congruence).
      cbn [Nillable]. split; [intros t e0; split; [discriminate|]|split; [|reflexivity]].
      * intros (v & Hv & _). destruct (U v Hv).
      * intros _ (v & Hv). exact (U v Hv).
  - destruct e as [e d']. cbn [Nillable]. split; [intros t e0; split; [discriminate|]|split; [|reflexivity]].
    + intros (v & Hv & _). destruct (N1 v Hv).
    + intros _ (v & Hv). exact (N1 v Hv).
Qed.

Lemma int_bytes_first : forall f z, int_range f z -> exists b bs, int_bytes f z = b :: bs /\ b <> 0xc0.
Proof.
  intros f z R. unfold int_bytes. destruct f; cbn [int_range] in R; cbn [int_tag int_width app]; try (eexists _, _; split; [reflexivity|discriminate]).
  - change (256 ^ Z.of_nat 1)%Z with 256%Z. rewrite be1 by lia. eexists _, _. split; [reflexivity|lia].
  - change (256 ^ Z.of_nat 1)%Z with 256%Z. rewrite be1 by lia. eexists _, _. split; [reflexivity|lia].
Qed.

Lemma signed_exact : forall {T} (c : Z -> T) lo hi pre tail, wf tail -> len pre + len tail < 2^31 ->
  let d := mkDR (pre ++ tail) (len pre) false in
  (forall t e, field_nillable (Nillable c) (ReadIntN lo hi) d = Ret (t, e) <->
     exists z, signed_here lo hi tail z /\ t = Some (c z) /\ e = None) /\
  (field_nillable (Nillable c) (ReadIntN lo hi) d = Panic <-> ~ exists z, signed_here lo hi tail z).
Proof.
  intros T c lo hi pre tail W B d. destruct (bounds pre tail B) as [F R].
  apply (field_exact c (ReadIntN lo hi) (signed_here lo hi) pre tail F R W).
  - intro v. split.
    + intros (d' & E). apply (read_int_iff lo hi pre tail v d' W B) in E as (Rg & f & rest & S & I & E & _).
      split; [exact Rg|]. eauto.
    + intros (Rg & f & rest & S & I & E). exists (mkDR (pre ++ tail) (len pre + len (int_bytes f v)) false).
      apply (read_int_iff lo hi pre tail v _ W B). split; [exact Rg|]. exists f, rest. auto.
  - intros rest v (_ & f & r & _ & I & E). destruct (int_bytes_first f v I) as (b & bs & E' & D). rewrite E' in E. injection E as E _. congruence.
  - intros v (_ & f & r & _ & I & E). destruct (int_bytes_first f v I) as (b & bs & E' & D). rewrite E' in E. discriminate E.
Qed.
Lemma unsigned_exact : forall {T} (c : N -> T) hi pre tail, wf tail -> len pre + len tail < 2^31 ->
  let d := mkDR (pre ++ tail) (len pre) false in
  (forall t e, field_nillable (Nillable c) (ReadUintN hi) d = Ret (t, e) <->
     exists n, unsigned_here hi tail n /\ t = Some (c n) /\ e = None) /\
  (field_nillable (Nillable c) (ReadUintN hi) d = Panic <-> ~ exists n, unsigned_here hi tail n).
Proof.
  intros T c hi pre tail W B d. destruct (bounds pre tail B) as [F R].
  apply (field_exact c (ReadUintN hi) (unsigned_here hi) pre tail F R W).
  - intro v. split.
    + intros (d' & E). apply (read_uint_iff hi pre tail v d' W B) in E as (Rg & f & rest & I & E & _).
      split; [exact Rg|]. eauto.
    + intros (Rg & f & rest & I & E). exists (mkDR (pre ++ tail) (len pre + len (int_bytes f (Z.of_N v))) false).
      apply (read_uint_iff hi pre tail v _ W B). split; [exact Rg|]. exists f, rest. auto.
  - intros rest v (_ & f & r & I & E). destruct (int_bytes_first f _ I) as (b & bs & E' & D). rewrite E' in E. injection E as E _. congruence.
  - intros v (_ & f & r & I & E). destruct (int_bytes_first f _ I) as (b & bs & E' & D). rewrite E' in E. discriminate E.
Qed.
Lemma bool_exact : forall {T} (c : bool -> T) pre tail, wf tail -> len pre + len tail < 2^31 ->
  let d := mkDR (pre ++ tail) (len pre) false in
  (forall t e, field_nillable (Nillable c) ReadBool d = Ret (t, e) <-> exists b, bool_here tail b /\ t = Some (c b) /\ e = None) /\
  (field_nillable (Nillable c) ReadBool d = Panic <-> ~ exists b, bool_here tail b).
Proof.
  intros T c pre tail W B d. destruct (bounds pre tail B) as [F R].
  apply (field_exact c ReadBool bool_here pre tail F R W).
  - intro v. split.
    + intros (d' & E). apply (bool_iff pre tail v d' W B) in E as (rest & E & _). exists rest. exact E.
    + intros (rest & E). eexists. apply (bool_iff pre tail v _ W B). exists rest. split; [exact E|reflexivity].
  - intros rest v (r & E). destruct v; discriminate E.
  - intros v (r & E). destruct v; discriminate E.
Qed.
Lemma text_not_nil : forall hd n, text_head hd n -> exists b bs, hd = b :: bs /\ b <> 0xc0.
Proof.
  intros hd n [(f & L & ->)|(f & D & L & ->)]; destruct f; try congruence; cbn [len_limit str_head arr_head] in *;
    eexists _, _; (split; [reflexivity|try discriminate; lia]).
Qed.
Lemma text_exact : forall {T} (c : bytes -> T) pre tail, wf tail -> len pre + len tail < 2^31 ->
  let d := mkDR (pre ++ tail) (len pre) false in
  (forall t e, field_nillable (Nillable c) ReadString d = Ret (t, e) <-> exists s, text_here tail s /\ t = Some (c s) /\ e = None) /\
  (field_nillable (Nillable c) ReadString d = Panic <-> ~ exists s, text_here tail s).
Proof.
  intros T c pre tail W B d. destruct (bounds pre tail B) as [F R].
  apply (field_exact c ReadString text_here pre tail F R W).
  - intro v. split.
    + intros (d' & E). unfold ReadString in E. apply (bytes_iff _ _ str_head_inv str_head_reads text_small pre tail v d' W B) in E as (hd & rest & Hh & E & _).
      exists hd, rest. auto.
    + intros (hd & rest & Hh & E). eexists. unfold ReadString. apply (bytes_iff _ _ str_head_inv str_head_reads text_small pre tail v _ W B).
      exists hd, rest. split; [exact Hh|]. split; [exact E|reflexivity].
  - intros rest v (hd & r & Hh & E). destruct (text_not_nil _ _ Hh) as (b & bs & -> & D). injection E as E _. congruence.
  - intros v (hd & r & Hh & E). destruct (text_not_nil _ _ Hh) as (b & bs & -> & D). discriminate E.
Qed.

(** The adapters that look at their argument. *)
Lemma parse_safe : forall {I T} (fn : I -> T * err) (m : M I) pre tail, fits pre tail -> room pre -> wf tail ->
  (forall d, m d <> Panic) ->
  exists t e, field_nillable (NillableParse fn) m (at_ pre tail) = Ret (t, e) /\
    (forall x, t = Some x -> exists v, fn v = (x, None) /\ exists d', m (at_ pre tail) = Ret (v, d')) /\
    (t <> None -> e = None) /\
    ((exists rest, tail = 0xc0 :: rest) -> t = None /\ e = None).
Proof.
  intros I T fn m pre tail F R W NP. unfold field_nillable.
  destruct (nillable_cases m pre tail F R W) as [(rest & -> & ->)|[(D & D' & ->)|(-> & e & ->)]].
  - exists None, None. split; [reflexivity|]. split; [discriminate|]. split; [congruence|auto].
  - specialize (NP (at_ pre tail)). destruct (m (at_ pre tail)) as [[a d']|[e d']|] eqn:E; [| |congruence].
    + cbn [NillableParse]. destruct (fn a) as [x [e|]] eqn:Q.
      * exists None, (Some e). split; [reflexivity|]. split; [discriminate|]. split; [congruence|]. intros (rest & Z). destruct (D rest Z).
      * exists (Some x), None. split; [reflexivity|]. split; [|split; [auto|]].
        -- intros y Y. injection Y as <-. exists a. split; [exact Q|eauto].
        -- intros (rest & Z). destruct (D rest Z).
    + exists None, (Some e). split; [reflexivity|]. split; [discriminate|]. split; [congruence|]. intros (rest & Z). destruct (D rest Z).
  - destruct e as [e d']. exists None, (Some e). split; [reflexivity|]. split; [discriminate|]. split; [congruence|]. intros (rest & Z). discriminate Z.
Qed.

(** Texts, read where they must stand or where nil may stand instead. *)
Lemma text_iff : forall pre tail v, wf tail -> len pre + len tail < 2^31 -> (exists d', ReadString (mkDR (pre ++ tail) (len pre) false) = Ret (v, d')) <-> text_here tail v.
Proof.
  intros pre tail v W B. split.
  - intros (d' & E). unfold ReadString in E. apply (bytes_iff _ _ str_head_inv str_head_reads text_small pre tail v d' W B) in E as (hd & rest & Hh & E & _). exists hd, rest. auto.
  - intros (hd & rest & Hh & E). eexists. unfold ReadString. apply (bytes_iff _ _ str_head_inv str_head_reads text_small pre tail v _ W B). exists hd, rest. split; [exact Hh|]. split; [exact E|reflexivity].
Qed.
Lemma parse_field : forall {T} (zero : T) (fn : bytes -> T * err) pre tail, wf tail -> len pre + len tail < 2^31 ->
  let d := mkDR (pre ++ tail) (len pre) false in
  (forall s, text_here tail s -> field [] (Parse zero fn) ReadString d = Ret (fn s)) /\
  ((forall s, ~ text_here tail s) -> (exists e, field [] (Parse zero fn) ReadString d = Ret (zero, Some e)) \/ ReadString d = Panic /\ field [] (Parse zero fn) ReadString d = Panic).
Proof.
  intros T zero fn pre tail W B d. unfold field. split.
  - intros s Hs. apply (text_iff pre tail s W B) in Hs. destruct Hs as (d' & E). unfold d. rewrite E. reflexivity.
  - intro N. destruct (ReadString d) as [[v d']|[e d']|] eqn:E; [|left; exists e; reflexivity|right; split; reflexivity]. exfalso. apply (N v). apply (text_iff pre tail v W B). exists d'. exact E.
Qed.
Lemma time_field : forall {T} (fn : bytes -> T * err) pre tail, wf tail -> len pre + len tail < 2^31 ->
  let d := mkDR (pre ++ tail) (len pre) false in
  (forall s, text_here tail s -> field_nillable (StringToTimePtr fn) ReadString d = Ret (Some (fst (fn s)), snd (fn s))) /\
  (forall rest, tail = 0xc0 :: rest -> field_nillable (StringToTimePtr fn) ReadString d = Ret (None, None)) /\
  ((forall s, ~ text_here tail s) -> (forall rest, tail <> 0xc0 :: rest) ->
     (exists e, field_nillable (StringToTimePtr fn) ReadString d = Ret (None, Some e)) \/ ReadString d = Panic /\ field_nillable (StringToTimePtr fn) ReadString d = Panic).
Proof.
  intros T fn pre tail W B d. destruct (bounds pre tail B) as [F R]. unfold field_nillable. change d with (at_ pre tail).
  destruct (nillable_cases ReadString pre tail F R W) as [(rest & -> & ->)|[(D & D' & ->)|(-> & [e d'] & ->)]].
  - split; [|split; [reflexivity|]].
    + intros s (hd & r & Hh & E). exfalso. destruct (text_not_nil _ _ Hh) as (b & bs & -> & Db). injection E as E _. congruence.
    + intros _ N. destruct (N rest eq_refl).
  - split; [|split].
    + intros s Hs. apply (text_iff pre tail s W B) in Hs. destruct Hs as (d' & E). change (mkDR (pre ++ tail) (len pre) false) with (at_ pre tail) in E. rewrite E. cbn [StringToTimePtr]. destruct (fn s); reflexivity.
    + intros rest Z. destruct (D rest Z).
    + intros N _. destruct (ReadString (at_ pre tail)) as [[v d']|[e d']|] eqn:E; [|left; exists e; reflexivity|right; split; reflexivity]. exfalso. apply (N v). apply (text_iff pre tail v W B). exists d'. exact E.
  - split; [|split].
    + intros s (hd & r & Hh & E). exfalso. destruct (text_not_nil _ _ Hh) as (b & bs & -> & Db). discriminate E.
    + intros rest Z. discriminate Z.
    + intros _ _. left. exists e. reflexivity.
Qed.
