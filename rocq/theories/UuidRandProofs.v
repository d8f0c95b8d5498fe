(** Proofs about random UUIDs and the UUID clock. *)
From Coq Require Import List NArith ZArith Lia Bool ZifyBool ZifyNat ZifyN.
From Verif Require Import Base BaseLemmas MsgpackModel UuidModel UuidSpec UuidProofs.
Import ListNotations.
Ltac Zify.zify_post_hook ::= Z.div_mod_to_equations.
Open Scope N_scope.

(** ** stamp *)
Lemma take_len : forall rand o n, length (take rand o n) = n.
Proof. intros. unfold take. rewrite map_length, seq_length. reflexivity. Qed.
Lemma take_wf : forall rand o n, (forall i, rand i < 256) -> wf (take rand o n).
Proof. intros rand o n B. unfold take, wf. apply Forall_forall. intros x I. apply in_map_iff in I as (i & <- & _). apply B. Qed.

Lemma ver_table : forallb (fun b => N.shiftr (N.lor (N.land b 0x0f) 0x40) 4 =? 4) (map N.of_nat (seq 0 256)) = true.
Proof. vm_compute. reflexivity. Qed.
Lemma var_table : forallb (fun b => N.land (N.lor (N.land b 0x3f) 0x80) 0xc0 =? 0x80) (map N.of_nat (seq 0 256)) = true.
Proof. vm_compute. reflexivity. Qed.

Theorem stamp_marks_proof : forall u, length u = 16%nat -> wf u -> Version (stamp u) = 4 /\ Variant (stamp u) = RFC4122.
Proof.
  intros u L W. explode u L. repeat (match type of W with wf (_ :: _) => let B := fresh "B" in apply wf_cons in W as [B W] end).
  unfold stamp, set_at, Version, Variant. cbn [nth firstn skipn app]. split.
  - match goal with |- N.shiftr (N.lor (N.land ?x _) _) _ = _ => assert (X := below_256 _ x ver_table) end. cbv beta in X. apply N.eqb_eq. apply X. assumption.
  - match goal with |- context [N.lor (N.land ?x 63) _] => assert (X := below_256 _ x var_table) end. cbv beta in X. rewrite X by assumption. reflexivity.
Qed.

Theorem stamp_free_proof : forall u byte bit, length u = 16%nat -> free_bit byte bit -> bit_of (stamp u) byte bit = bit_of u byte bit.
Proof.
  intros u byte bit L (B1 & B2 & B3 & B4). explode u L. unfold stamp, set_at, bit_of. cbn [nth firstn skipn app].
  assert (C : byte = 0 \/ byte = 1 \/ byte = 2 \/ byte = 3 \/ byte = 4 \/ byte = 5 \/ byte = 6 \/ byte = 7 \/ byte = 8 \/ byte = 9 \/ byte = 10 \/ byte = 11 \/ byte = 12 \/ byte = 13 \/ byte = 14 \/ byte = 15) by lia.
  assert (X6 : forall x, bit < 4 -> N.testbit (N.lor (N.land x 15) 64) bit = N.testbit x bit).
  { intros x Hb. rewrite N.lor_spec, N.land_spec. assert (bit = 0 \/ bit = 1 \/ bit = 2 \/ bit = 3) as [->|[->|[->| ->]]] by lia; destruct (N.testbit x _); reflexivity. }
  assert (X8 : forall x, bit < 6 -> N.testbit (N.lor (N.land x 63) 128) bit = N.testbit x bit).
  { intros x Hb. rewrite N.lor_spec, N.land_spec. assert (bit = 0 \/ bit = 1 \/ bit = 2 \/ bit = 3 \/ bit = 4 \/ bit = 5) as [->|[->|[->|[->|[->| ->]]]]] by lia; destruct (N.testbit x _); reflexivity. }
  repeat (destruct C as [->|C]; [first [reflexivity|apply X6; lia|apply X8; lia]|]). subst. reflexivity.
Qed.

(** Equal results mean equal free bits. *)
Theorem stamp_lossless_proof : forall u v, length u = 16%nat -> length v = 16%nat -> stamp u = stamp v -> forall byte bit, free_bit byte bit -> bit_of u byte bit = bit_of v byte bit.
Proof. intros u v Lu Lv E byte bit F. rewrite <- (stamp_free_proof u byte bit Lu F), <- (stamp_free_proof v byte bit Lv F), E. reflexivity. Qed.

(** ** Histories *)
Section Histories.
Context (rand : nat -> N).
Definition from_stream (o : nat) : uuid := stamp (take rand o 16).

Definition inv (s : rstate) (from : nat) : Prop :=
  (r_pool_pos s = pool_size /\ (from <= r_pos s)%nat) \/
  (r_pooled s = true /\ exists base k, r_pool s = take rand base pool_size /\ (base + pool_size <= r_pos s)%nat /\ r_pool_pos s = (16 * k)%nat /\ (k < 16)%nat /\ (from <= base + 16 * k)%nat).

Lemma take_part : forall base n m k, (n + m <= k)%nat -> firstn m (skipn n (take rand base k)) = take rand (base + n) m.
Proof.
  intros base n m k L. unfold take. rewrite skipn_map, firstn_map. f_equal.
  replace k with (n + (m + (k - n - m)))%nat by lia. rewrite seq_app. rewrite skipn_app, skipn_all2 by (rewrite seq_length; lia). rewrite seq_length, Nat.sub_diag. cbn [skipn app].
  rewrite seq_app, firstn_app, firstn_all2 by (rewrite seq_length; lia). rewrite seq_length, Nat.sub_diag. cbn [firstn]. apply app_nil_r.
Qed.

Lemma apart_weaken : forall l a b, (a <= b)%nat -> apart b l -> apart a l.
Proof. intros [|o l] a b L A; [exact I|]. destruct A as [A1 A2]. split; [lia|exact A2]. Qed.

Lemma draw_spec : forall pos base k, (base + pool_size <= pos)%nat -> (k < 16)%nat ->
  let s := mkR pos true (16 * k) (take rand base pool_size) in
  snd (draw s) = Some (from_stream (base + 16 * k)) /\ inv (fst (draw s)) (base + 16 * k + 16).
Proof.
  intros pos base k B K s. unfold draw, s. cbn [r_pos r_pooled r_pool_pos r_pool fst snd]. split.
  - unfold from_stream. rewrite take_part; [reflexivity|unfold pool_size; lia].
  - unfold inv. cbn [r_pos r_pooled r_pool_pos r_pool]. unfold pool_size in *. destruct (Nat.eq_dec k 15) as [->|N]; [left; lia|]. right. split; [reflexivity|]. exists base, (Datatypes.S k). repeat split; lia.
Qed.

Lemma rstep_inv : forall s c from, inv s from -> (r_pooled s = false -> r_pool_pos s = pool_size) ->
  (r_pooled (fst (rstep rand s c)) = false -> r_pool_pos (fst (rstep rand s c)) = pool_size) /\
  (match snd (rstep rand s c) with
   | None => inv (fst (rstep rand s c)) from
   | Some u => exists o, (from <= o)%nat /\ u = from_stream o /\ inv (fst (rstep rand s c)) (o + 16)
   end).
Proof.
  intros s c from I P. destruct c as [fail| |]; cbn [rstep].
  - destruct (r_pooled s) eqn:Ep.
    + unfold new_from_pool. destruct (Nat.eqb_spec (r_pool_pos s) pool_size) as [E|E].
      * assert (F : (from <= r_pos s)%nat) by (destruct I as [[_ I]|(_ & base & k & _ & B & K & L & I)]; [exact I|]; unfold pool_size in *; lia).
        destruct fail as [n|].
        -- cbn [fst snd r_pooled r_pool_pos]. split; [intros _; exact E|]. left. cbn [r_pool_pos r_pos]. split; [exact E|lia].
        -- rewrite Ep. destruct (draw_spec (r_pos s + pool_size) (r_pos s) 0) as [D1 D2]; [lia|lia|]. rewrite Nat.mul_0_r in *. rewrite D1. split; [cbn; discriminate|]. exists (r_pos s + 0)%nat. split; [lia|split; [reflexivity|exact D2]].
      * destruct I as [[I _]|(_ & base & k & R & B & K & L & I)]; [contradiction|]. destruct s as [pos pooled pp pool]. cbn [r_pos r_pooled r_pool_pos r_pool] in *. subst.
        destruct (draw_spec pos base k B L) as [D1 D2]. rewrite D1. split; [cbn; discriminate|]. eexists. split; [exact I|split; [reflexivity|exact D2]].
    + assert (E := P eq_refl). assert (F : (from <= r_pos s)%nat) by (destruct I as [[_ I]|(I & _)]; [exact I|congruence]). destruct fail as [n|]; cbn [new_from_reader fst snd r_pooled r_pool_pos].
      * split; [intros _; exact E|]. left. cbn [r_pool_pos r_pos]. split; [exact E|lia].
      * split; [intros _; exact E|]. exists (r_pos s). split; [exact F|split; [reflexivity|]]. left. cbn [r_pool_pos r_pos]. split; [exact E|lia].
  - cbn [fst snd r_pooled]. split; [discriminate|]. destruct I as [I|(_ & I)]; [left; exact I|right; split; [reflexivity|exact I]].
  - cbn [fst snd r_pooled r_pool_pos]. split; [reflexivity|]. left. cbn [r_pool_pos r_pos]. split; [reflexivity|]. destruct I as [[_ I]|(_ & base & k & R & B & K & L & I)]; [exact I|unfold pool_size in *; lia].
Qed.

Lemma rrun_inv : forall h s from, inv s from -> (r_pooled s = false -> r_pool_pos s = pool_size) ->
  exists os, apart from os /\ rrun rand s h = map from_stream os.
Proof.
  induction h as [|c h IH]; intros s from I P; [exists []; split; [exact Logic.I|reflexivity]|]. cbn [rrun]. destruct (rstep_inv s c from I P) as [P' K]. destruct (rstep rand s c) as [s' [u|]]; cbn [fst snd] in *.
  - destruct K as (o & L & -> & I'). destruct (IH s' _ I' P') as (os & A & E). exists (o :: os). split; [split; assumption|]. cbn [map]. rewrite E. reflexivity.
  - destruct (IH s' _ K P') as (os & A & E). exists os. split; [exact A|exact E].
Qed.

Theorem disjoint_proof : forall h, exists os, apart 0 os /\ rrun rand r_init h = map from_stream os.
Proof. intro h. apply rrun_inv; [left; split; [reflexivity|apply Nat.le_0_l]|reflexivity]. Qed.

Theorem new_succeeds_proof : forall s, exists u, snd (rstep rand s (RNew None)) = Some u.
Proof.
  intros s. cbn [rstep]. destruct (r_pooled s); [|eexists; reflexivity]. unfold new_from_pool. destruct (Nat.eqb _ _); eexists; reflexivity.
Qed.
End Histories.

(** ** The clock *)
Definition valid (q : N) : Prop := 0x8000 <= q < 0xC000.
Definition adv (b q : N) : N := 0x8000 + (q - 0x8000 + b) mod 2^14.

Lemma mark_seq : forall x, N.lor (N.land x 0x3fff) 0x8000 = 0x8000 + x mod 2^14.
Proof.
  intro x. change 0x3fff with (2^14 - 1). rewrite land_ones_mod, N.lor_comm. change 0x8000 with (1 * 2^15). apply lor_add. change (2^14) with 16384. change (2^15) with 32768. lia.
Qed.
Lemma bump : forall q, valid q -> N.lor (N.land (u16 (q + 1)) 0x3fff) 0x8000 = adv 1 q.
Proof. intros q V. unfold valid in V. rewrite mark_seq. unfold adv, u16. change (2^16) with 65536. change (2^14) with 16384. lia. Qed.
Lemma adv_adv : forall a b q, valid q -> adv a (adv b q) = adv (a + b) q.
Proof. intros a b q V. unfold valid, adv in *. change (2^14) with 16384. lia. Qed.
Lemma adv_valid : forall b q, valid (adv b q).
Proof. intros. unfold valid, adv. change (2^14) with 16384. lia. Qed.
Lemma adv_neq : forall b q, valid q -> 0 < b -> b < 16384 -> adv b q <> q.
Proof. intros b q V A B. unfold valid, adv in *. change (2^14) with 16384. lia. Qed.
Lemma adv_0 : forall q, valid q -> adv 0 q = q.
Proof. intros q V. unfold valid, adv in *. change (2^14) with 16384. lia. Qed.

Lemma set_valid : forall s z r, valid (c_seq (setClockSequence s z r)).
Proof. intros. unfold setClockSequence. cbn [c_seq]. rewrite mark_seq. unfold valid. change (2^14) with 16384. lia. Qed.

Definition ready (s : cstate) : Prop := c_seq s = 0 \/ valid (c_seq s).
(** What getTime works with. *)
Definition prepared (s : cstate) (rnd : N) : cstate := if c_seq s =? 0 then setClockSequence s (-1) rnd else s.
Lemma prepared_valid : forall s r, ready s -> valid (c_seq (prepared s r)).
Proof. intros s r [E|V]; unfold prepared; [rewrite E; apply set_valid|]. destruct (N.eqb_spec (c_seq s) 0) as [E|_]; [apply set_valid|exact V]. Qed.

Lemma getTime_spec : forall s nano r, ready s -> exists now b, now < 2^64 /\ b <= 1 /\ (b = 0 -> c_last (prepared s r) < now) /\
  getTime s nano r = (mkC now (adv b (c_seq (prepared s r))), (to_signed 64 now, adv b (c_seq (prepared s r)))).
Proof.
  intros s nano r R. assert (V := prepared_valid s r R). unfold getTime. fold (prepared s r).
  set (now := u64 _). exists now. assert (B : now < 2^64) by (apply N.mod_lt; discriminate).
  destruct (N.leb_spec now (c_last (prepared s r))) as [L|L].
  - exists 1. repeat split; [exact B|lia|lia|]. rewrite bump by exact V. reflexivity.
  - exists 0. repeat split; [exact B|lia|auto|]. rewrite adv_0 by exact V. reflexivity.
Qed.

Lemma cstep_ready : forall s c, ready s -> ready (fst (cstep s c)).
Proof.
  intros s c R. destruct c as [nano r|z r|r]; cbn [cstep].
  - destruct (getTime_spec s nano r R) as (now & b & _ & _ & _ & E). rewrite E. right. cbn [fst c_seq]. apply adv_valid.
  - right. apply set_valid.
  - right. cbn [clockSequence fst]. exact (prepared_valid s r R).
Qed.
Lemma after_ready : forall h, ready (cstate_after h).
Proof.
  intro h. unfold cstate_after. assert (R : ready c_init) by (left; reflexivity). generalize dependent c_init. induction h as [|c h IH]; intros s R; [exact R|]. cbn [fold_left]. apply IH. apply cstep_ready. exact R.
Qed.

Theorem variant_proof : forall h t q, In (t, q) (readings c_init h) -> 0x8000 <= q < 0xC000.
Proof.
  intros h. assert (R : ready c_init) by (left; reflexivity). generalize dependent c_init. induction h as [|c h IH]; intros s R t q I; [destruct I|]. cbn [readings] in I.
  assert (R' := cstep_ready s c R). destruct (cstep s c) as [s' r] eqn:E. cbn [fst] in R'. apply in_app_iff in I as [I|I]; [|exact (IH s' R' _ _ I)].
  destruct c as [nano rn|z rn|rn]; cbn [cstep] in E.
  - destruct (getTime_spec s nano rn R) as (now & b & _ & _ & _ & G). rewrite G in E. injection E as <- <-. destruct I as [I|[]]. injection I as <- <-. apply adv_valid.
  - injection E as <- <-. destruct I.
  - injection E as <- <-. destruct I.
Qed.

Lemma to_signed_inj : forall a b, a < 2^64 -> b < 2^64 -> to_signed 64 a = to_signed 64 b -> a = b.
Proof.
  intros a b A B. unfold to_signed. change (64 - 1) with 63. change (2^63) with 9223372036854775808. change (2^64) with 18446744073709551616 in *. change (2 ^ Z.of_N 64)%Z with 18446744073709551616%Z.
  destruct (N.ltb_spec a 9223372036854775808), (N.ltb_spec b 9223372036854775808); lia.
Qed.

Definition gets (l : list (Z * N)) : list ccall := map (fun p => CGet (fst p) (snd p)) l.

Lemma later : forall l s, valid (c_seq s) -> forall t q, In (t, q) (readings s (gets l)) ->
  exists now b, t = to_signed 64 now /\ now < 2^64 /\ b <= len l /\ q = adv b (c_seq s) /\ (b = 0 -> c_last s < now).
Proof.
  induction l as [|[nano r] l IH]; intros s V t q I; [destruct I|]. cbn [gets map readings fst snd cstep] in I. destruct (getTime_spec s nano r (or_intror V)) as (now & b & B1 & B2 & B3 & E). rewrite E in I.
  assert (P : prepared s r = s) by (unfold prepared; destruct (N.eqb_spec (c_seq s) 0) as [Z|_]; [unfold valid in V; lia|reflexivity]). rewrite P in *. rewrite len_cons.
  apply in_app_iff in I as [[I|[]]|I].
  - injection I as <- <-. exists now, b. repeat split; [exact B1|lia|exact B3].
  - apply IH in I; [|cbn [c_seq]; apply adv_valid]. cbn [c_seq c_last] in I. destruct I as (now' & b' & -> & C1 & C2 & -> & C3). exists now', (b' + b). repeat split; [exact C1|lia|apply adv_adv; exact V|].
    intro Z. assert (b' = 0) as Z1 by lia. assert (b = 0) as Z2 by lia. specialize (C3 Z1). specialize (B3 Z2). lia.
Qed.

Lemma window_from : forall l s, ready s -> len l <= 16384 -> NoDup (readings s (gets l)).
Proof.
  induction l as [|[nano r] l IH]; intros s R L; [constructor|]. rewrite len_cons in L. cbn [gets map readings fst snd cstep]. destruct (getTime_spec s nano r R) as (now & b & B1 & B2 & B3 & E). rewrite E. cbn [app]. constructor.
  - intro I. apply later in I; [|apply adv_valid]. cbn [c_seq c_last] in I. destruct I as (now' & b' & E1 & C1 & C2 & E2 & C3). apply to_signed_inj in E1; [|assumption|assumption]. subst now'.
    destruct (N.eq_dec b' 0) as [->|N]; [specialize (C3 eq_refl); lia|]. symmetry in E2. revert E2. apply adv_neq; [apply adv_valid|lia|lia].
  - apply IH; [right; cbn [c_seq]; apply adv_valid|lia].
Qed.
Theorem window_proof : forall h l, (length l <= N.to_nat 16384)%nat -> NoDup (readings (cstate_after h) (gets l)).
Proof. intros h l L. apply window_from; [apply after_ready|unfold len; lia]. Qed.

(** Times. *)
Lemma i64_small : forall z, (- 2^63 <= z < 2^63)%Z -> i64 z = z.
Proof.
  intros z B. unfold i64, to_signed, of_signed. change (64 - 1) with 63. change (2 ^ Z.of_N 64)%Z with 18446744073709551616%Z. change (2^63) with 9223372036854775808. change (2^63)%Z with 9223372036854775808%Z in B.
  destruct (N.ltb_spec (Z.to_N (z mod 18446744073709551616)) 9223372036854775808); lia.
Qed.

Lemma split_quot : forall x, split_seconds (x * 100) (Z.quot x 10000000) (Z.rem x 10000000 * 100).
Proof.
  intro x. unfold split_seconds. assert (E := Z.quot_rem' x 10000000). assert (B := Z.rem_bound_abs x 10000000). assert (P := Z.rem_nonneg x 10000000). assert (N := Z.rem_nonpos x 10000000). lia.
Qed.
Lemma unix_x : forall x t, (- 2^63 <= x < 2^63)%Z -> i64 (t - g1582ns100) = x -> UnixTime t = (Z.quot x 10000000, Z.rem x 10000000 * 100)%Z.
Proof.
  intros x t B E. unfold UnixTime. rewrite E. f_equal. apply i64_small. assert (C := Z.rem_bound_abs x 10000000). change (2^63)%Z with 9223372036854775808%Z in *. lia.
Qed.
Theorem unix_proof : forall t, (- 2^63 + g1582ns100 <= t < 2^63)%Z -> split_seconds ((t - g1582ns100) * 100) (fst (UnixTime t)) (snd (UnixTime t)).
Proof.
  intros t B. assert (B' : (- 2^63 <= t - g1582ns100 < 2^63)%Z) by (unfold g1582ns100 in *; lia). rewrite (unix_x (t - g1582ns100) t B' (i64_small _ B')). apply split_quot.
Qed.

Theorem reading_time_proof : forall s nano r, ready s -> (- 2^63 <= nano < 2^63)%Z ->
  split_seconds (Z.quot nano 100 * 100) (fst (UnixTime (fst (snd (getTime s nano r))))) (snd (UnixTime (fst (snd (getTime s nano r))))).
Proof.
  intros s nano r R B. set (x := Z.quot nano 100). assert (X : (- 2^63 <= x < 2^63)%Z).
  { unfold x. assert (Q := Z.quot_rem' nano 100). assert (C := Z.rem_bound_abs nano 100). change (2^63)%Z with 9223372036854775808%Z in *. lia. }
  unfold getTime. cbn [fst snd]. fold x. rewrite (unix_x x _ X); [apply split_quot|].
  unfold i64, to_signed, of_signed, u64, g1582ns100. change (64 - 1) with 63. change (2 ^ Z.of_N 64)%Z with 18446744073709551616%Z. change (2^63) with 9223372036854775808. change (2^64) with 18446744073709551616. change (2^63)%Z with 9223372036854775808%Z in X.
  set (g := ((2440587 - 2299160) * 86400 * 10000000)%Z). assert (G : g = 122192928000000000%Z) by reflexivity. clearbody g. subst g.
  repeat match goal with |- context [if ?a <? ?b then _ else _] => destruct (N.ltb_spec a b) end; lia.
Qed.

(** Fields of time-based UUIDs. *)
Lemma lor_parts : forall a b k, a < 2^k -> N.lor a (N.shiftl b k) = a + b * 2^k.
Proof. intros a b k H. rewrite N.lor_comm, lor_shiftl_add by exact H. lia. Qed.

Theorem fields_proof : forall t ver seq node, t < 2^60 -> ver < 16 -> seq < 2^14 -> length node = 6%nat ->
  Time (rfc_uuid t ver seq node) = Z.of_N t /\ ClockSequence (rfc_uuid t ver seq node) = seq /\ Version (rfc_uuid t ver seq node) = ver /\ Variant (rfc_uuid t ver seq node) = RFC4122.
Proof.
  intros t ver seq node T V S L.
  set (f1 := t mod 2^32). set (f2 := t / 2^32 mod 2^16). set (f3 := ver * 2^12 + t / 2^48 mod 2^12). set (f4 := 2^15 + seq).
  assert (U : rfc_uuid t ver seq node = be 4 f1 ++ be 2 f2 ++ be 2 f3 ++ be 2 f4 ++ node) by reflexivity.
  change (2^60) with 1152921504606846976 in T. change (2^14) with 16384 in S.
  assert (F3 : f3 < 65536) by (unfold f3; change (2^12) with 4096; change (2^48) with 281474976710656; lia). assert (F4 : 32768 <= f4 < 49152) by (unfold f4; change (2^15) with 32768; lia).
  assert (P1 : part (rfc_uuid t ver seq node) 0 4 = be 4 f1) by (rewrite U; unfold part; apply firstn_len_app; rewrite be_length; reflexivity).
  assert (P2 : part (rfc_uuid t ver seq node) 4 6 = be 2 f2) by (rewrite U; unfold part; rewrite skipn_len_app by (rewrite be_length; reflexivity); apply firstn_len_app; rewrite be_length; reflexivity).
  assert (P3 : part (rfc_uuid t ver seq node) 6 8 = be 2 f3) by (rewrite U; unfold part; rewrite app_assoc, skipn_len_app by (rewrite app_length, !be_length; reflexivity); apply firstn_len_app; rewrite be_length; reflexivity).
  assert (P4 : part (rfc_uuid t ver seq node) 8 10 = be 2 f4) by (rewrite U; unfold part; rewrite !app_assoc, <- (app_assoc _ (be 2 f4) node), skipn_len_app by (rewrite !app_length, !be_length; reflexivity); apply firstn_len_app; rewrite be_length; reflexivity).
  split; [|split; [|split]].
  - unfold Time. rewrite P1, P2, P3, !unbe_be. change (256 ^ N.of_nat 4) with 4294967296. change (256 ^ N.of_nat 2) with 65536. change 0xfff with (2^12 - 1). rewrite land_ones_mod. rewrite (lor_parts (f1 mod 4294967296) _ 32) by (change (2^32) with 4294967296; lia). rewrite lor_parts by (change (2^32) with 4294967296; change (2^48) with 281474976710656; lia).
    f_equal. change (2^32) with 4294967296. change (2^12) with 4096. change (2^48) with 281474976710656.
    assert (E1 : f1 mod 4294967296 = t mod 4294967296) by (unfold f1; change (2^32) with 4294967296; apply N.mod_mod; discriminate).
    assert (E2 : f2 mod 65536 = t / 4294967296 mod 65536) by (unfold f2; change (2^32) with 4294967296; change (2^16) with 65536; apply N.mod_mod; discriminate).
    assert (E3 : f3 mod 65536 mod 4096 = t / 4294967296 / 65536).
    { rewrite (N.mod_small f3) by exact F3. unfold f3. change (2^12) with 4096. change (2^48) with (4294967296 * 65536). rewrite <- N.div_div by discriminate. assert (t / 4294967296 / 65536 < 4096) by (clear - T; lia). revert H. generalize (t / 4294967296 / 65536). clear. intros. lia. }
    rewrite E1, E2, E3. clear. assert (A := N.div_mod t 4294967296). assert (B := N.div_mod (t / 4294967296) 65536). revert A B. generalize (t mod 4294967296). generalize (t / 4294967296). intros q. generalize (q / 65536) (q mod 65536). clear. intros. lia.
  - unfold ClockSequence. rewrite P4, unbe_be. change (256 ^ N.of_nat 2) with 65536. change 0x3fff with (2^14 - 1). rewrite land_ones_mod. unfold f4. change (2^15) with 32768. change (2^14) with 16384. lia.
  - unfold Version. assert (N6 : nth 6 (rfc_uuid t ver seq node) 0 = f3 / 256 mod 256).
    { rewrite U. change (f3 / 256) with (f3 / 2^8). rewrite <- (N.shiftr_div_pow2 f3 8). reflexivity. }
    rewrite N6, N.shiftr_div_pow2. change (2^4) with 16. unfold f3. change (2^12) with 4096. generalize (t / 2^48). clear - V. intros. lia.
  - unfold Variant. assert (N8 : nth 8 (rfc_uuid t ver seq node) 0 = f4 / 256 mod 256).
    { rewrite U. change (f4 / 256) with (f4 / 2^8). rewrite <- (N.shiftr_div_pow2 f4 8). reflexivity. }
    rewrite N8. assert (B : f4 / 256 mod 256 < 256) by lia.
    assert (X := below_256 (fun b => negb ((128 <=? b) && (b <? 192)) || (N.land b 0xc0 =? 0x80)) (f4 / 256 mod 256) eq_refl B). cbv beta in X.
    destruct (N.land (f4 / 256 mod 256) 192 =? 128) eqn:E; [reflexivity|]. rewrite orb_false_r in X. clear - X F4. lia.
Qed.

(** Whether the pool is in use, by the history. *)
Definition pooling (h : list rcall) : bool := fold_left (fun b c => match c with REnable => true | RDisable => false | RNew _ => b end) h false.
Lemma pooled_history : forall rand h, r_pooled (fold_left (fun s c => fst (rstep rand s c)) h r_init) = pooling h.
Proof.
  intros rand h. unfold pooling. set (f := fun (b : bool) (c : rcall) => _). change (r_pooled (fold_left (fun s c => fst (rstep rand s c)) h r_init) = fold_left f h (r_pooled r_init)). generalize r_init. induction h as [|c h IH]; intro s; [reflexivity|]. cbn [fold_left]. rewrite IH. f_equal. unfold f.
  destruct c as [fail| |]; try reflexivity. cbn [rstep]. destruct (r_pooled s) eqn:P.
  - unfold new_from_pool. destruct (Nat.eqb _ _); [destruct fail|]; unfold draw; cbn [fst r_pooled]; exact P.
  - unfold new_from_reader. destruct fail; cbn [fst r_pooled]; exact P.
Qed.
