(** Proofs about go/types/uuid. *)
From Coq Require Import List NArith ZArith Lia Bool ZifyBool ZifyNat ZifyN.
From Verif Require Import Base BaseLemmas OperationsModel OperationsProofs MsgpackModel UuidModel UuidSpec.
Import ListNotations.
Ltac Zify.zify_post_hook ::= Z.div_mod_to_equations.
Open Scope N_scope.

(** ** Digits *)
Definition xv (c : N) : N := nth (N.to_nat c) xvalues 0.
Definition xv_good (c : N) : bool :=
  if (48 <=? c) && (c <=? 57) then xv c =? c - 48
  else if (65 <=? c) && (c <=? 70) then xv c =? c - 55
  else if (97 <=? c) && (c <=? 102) then xv c =? c - 87
  else xv c =? 255.
Lemma xv_table : forallb xv_good (map N.of_nat (seq 0 256)) = true.
Proof. vm_compute. reflexivity. Qed.
Lemma below_256 : forall (P : N -> bool) c, forallb P (map N.of_nat (seq 0 256)) = true -> c < 256 -> P c = true.
Proof.
  intros P c A B. rewrite forallb_forall in A. apply A. apply in_map_iff. exists (N.to_nat c). split; [lia|]. apply in_seq. lia.
Qed.
Lemma xv_spec : forall c, c < 256 -> (xv c < 16 /\ digit c (xv c)) \/ (xv c = 255 /\ forall v, ~ digit c v).
Proof.
  intros c B. assert (G := below_256 _ c xv_table B). unfold xv_good in G. unfold digit.
  destruct ((48 <=? c) && (c <=? 57)) eqn:A1; [left; lia|]. destruct ((65 <=? c) && (c <=? 70)) eqn:A2; [left; lia|]. destruct ((97 <=? c) && (c <=? 102)) eqn:A3; [left; lia|].
  right. split; [lia|]. intros v D. lia.
Qed.
Lemma digit_fun : forall c v v', digit c v -> digit c v' -> v = v'.
Proof. unfold digit. intros. lia. Qed.
Lemma digit_lt : forall c v, digit c v -> v < 16.
Proof. unfold digit. intros. lia. Qed.

Lemma xtob_spec : forall a b, a < 256 -> b < 256 ->
  (exists h l, digit a h /\ digit b l /\ xtob a b = (h * 16 + l, true)) \/ (exists v, xtob a b = (v, false) /\ forall h l, digit a h -> digit b l -> False).
Proof.
  intros a b A B. unfold xtob. fold (xv a). fold (xv b). destruct (xv_spec a A) as [[A1 A2]|[A1 A2]].
  - destruct (xv_spec b B) as [[B1 B2]|[B1 B2]].
    + left. exists (xv a), (xv b). split; [exact A2|split; [exact B2|]]. f_equal.
      * unfold u8. rewrite N.mod_small by (rewrite N.shiftl_mul_pow2; change (2^4) with 16; change (2^8) with 256; lia). rewrite lor_shiftl_add by (change (2^4) with 16; lia). reflexivity.
      * lia.
    + right. eexists. split; [f_equal; rewrite B1; apply andb_false_r|]. intros h l _ D. exact (B2 _ D).
  - right. eexists. split; [f_equal; rewrite A1; reflexivity|]. intros h l D _. exact (A2 _ D).
Qed.

(** ** The loops *)
Fixpoint flat (ps : list (N * N)) : bytes := match ps with [] => [] | (a, b) :: ps' => a :: b :: flat ps' end.
Fixpoint puts (u : uuid) (i : nat) (vs : bytes) : uuid := match vs with [] => u | v :: vs' => puts (set_at u i v) (Datatypes.S i) vs' end.

Lemma fill_spec : forall e s ps xs u i, wf (flat ps) -> Forall2 (fun x p => at_ (E := no_err) s x = Ret (fst p) /\ at_ (E := no_err) s (x + 1) = Ret (snd p)) xs ps ->
  (exists vs, hexes (flat ps) vs /\ fill e s u i xs = Ret (puts u i vs, None)) \/
  (exists r, fill e s u i xs = Ret (r, Some BadFormat) /\ forall vs, ~ hexes (flat ps) vs).
Proof.
  intros e s ps. induction ps as [|[a b] ps IH]; intros xs u i W F.
  - inversion F; subst. left. exists []. split; [constructor|reflexivity].
  - inversion F as [|x p xs' ps' [A B] F' E1 E2]; subst. cbn [fst snd] in *. cbn [flat] in W. apply wf_cons in W as [Wa W]. apply wf_cons in W as [Wb W].
    cbn [fill]. rewrite A. cbn [bind]. rewrite B. cbn [bind]. destruct (xtob_spec a b Wa Wb) as [(h & l & D1 & D2 & E)|(v & E & D)].
    + rewrite E. destruct (IH xs' (set_at u i (h * 16 + l)) (Datatypes.S i) W F') as [(vs & V1 & V2)|(r & R1 & R2)].
      * left. exists (h * 16 + l :: vs). split; [constructor; assumption|exact V2].
      * right. exists r. split; [exact R1|]. intros vs V. inversion V; subst. eapply R2. eassumption.
    + rewrite E. right. eexists. split; [reflexivity|]. intros vs V. inversion V; subst. eapply D; eassumption.
Qed.

Lemma hexes_len : forall s u, hexes s u -> length s = (2 * length u)%nat.
Proof. intros s u H. induction H; cbn [length]; lia. Qed.
Lemma hexes_fun : forall s u, hexes s u -> forall u', hexes s u' -> u = u'.
Proof. intros s u H. induction H as [|a b h l s u D1 D2 H IH]; intros u' H'; inversion H'; subst; [reflexivity|]. f_equal; [|auto]. assert (h = h0) by (eapply digit_fun; eassumption). assert (l = l0) by (eapply digit_fun; eassumption). subst. reflexivity. Qed.
Lemma hexes_wf : forall s u, hexes s u -> wf u.
Proof. intros s u H. induction H as [|a b h l s u D1 D2 H IH]; [constructor|]. apply wf_cons. split; [|exact IH]. apply digit_lt in D1, D2. lia. Qed.

Lemma puts_all : forall vs, length vs = 16%nat -> puts zero_uuid 0 vs = vs.
Proof. intros vs L. do 16 (destruct vs as [|? vs]; [discriminate L|]). destruct vs; [reflexivity|discriminate L]. Qed.

Ltac explode l H := repeat (destruct l as [|? l]; [discriminate H|]); destruct l; [|discriminate H].

Lemma len_nat : forall A (l : list A) (n : nat), len l = N.of_nat n -> length l = n.
Proof. intros. unfold len in *. lia. Qed.

Lemma dashed_len : forall s u, dashed s u -> length s = 36%nat /\ length u = 16%nat /\ wf u.
Proof.
  intros s u (a & b & c & d & e & -> & A & B & C & D & E & X). assert (L := hexes_len _ _ X). assert (W := hexes_wf _ _ X). unfold len in *. repeat (rewrite app_length in * || cbn [length] in * ). split; [lia|split; [lia|exact W]].
Qed.

Lemma dashed_fun : forall s u u', dashed s u -> dashed s u' -> u = u'.
Proof.
  intros s u u' (a & b & c & d & e & -> & A & B & C & D & E & X) (a' & b' & c' & d' & e' & Eq & A' & B' & C' & D' & E' & X').
  apply app_eq_len in Eq as [-> Eq]; [|congruence]. injection Eq as Eq. apply app_eq_len in Eq as [-> Eq]; [|congruence]. injection Eq as Eq. apply app_eq_len in Eq as [-> Eq]; [|congruence]. injection Eq as Eq.
  apply app_eq_len in Eq as [-> Eq]; [|congruence]. injection Eq as ->. exact (hexes_fun _ _ X _ X').
Qed.

Lemma parse_dashed_spec : forall s rest, length s = 36%nat -> wf s ->
  (exists u, dashed s u /\ parse_dashed (s ++ rest) = Ret (u, None)) \/ (exists r, parse_dashed (s ++ rest) = Ret (r, Some BadFormat) /\ forall u, ~ dashed s u).
Proof.
  intros s rest L W. 
  assert (S : exists a x1 b x2 c x3 d x4 e, s = a ++ x1 :: b ++ x2 :: c ++ x3 :: d ++ x4 :: e /\ length a = 8%nat /\ length b = 4%nat /\ length c = 4%nat /\ length d = 4%nat /\ length e = 12%nat).
  { do 36 (destruct s as [|? s]; [discriminate L|]). destruct s; [|discriminate L].
    match goal with |- context [ [?a0;?a1;?a2;?a3;?a4;?a5;?a6;?a7;?x1;?b0;?b1;?b2;?b3;?x2;?c0;?c1;?c2;?c3;?x3;?d0;?d1;?d2;?d3;?x4;?e0;?e1;?e2;?e3;?e4;?e5;?e6;?e7;?e8;?e9;?e10;?e11] ] =>
      exists [a0;a1;a2;a3;a4;a5;a6;a7], x1, [b0;b1;b2;b3], x2, [c0;c1;c2;c3], x3, [d0;d1;d2;d3], x4, [e0;e1;e2;e3;e4;e5;e6;e7;e8;e9;e10;e11] end. repeat split. }
  destruct S as (a & x1 & b & x2 & c & x3 & d & x4 & e & -> & La & Lb & Lc & Ld & Le). clear L.
  assert (ND : forall u, dashed (a ++ x1 :: b ++ x2 :: c ++ x3 :: d ++ x4 :: e) u -> x1 = 45 /\ x2 = 45 /\ x3 = 45 /\ x4 = 45 /\ hexes (a ++ b ++ c ++ d ++ e) u).
  { intros u (a' & b' & c' & d' & e' & Eq & A' & B' & C' & D' & E' & X').
    apply app_eq_len in Eq as [-> Eq]; [|unfold len in *; lia]. injection Eq as -> Eq. apply app_eq_len in Eq as [-> Eq]; [|unfold len in *; lia]. injection Eq as -> Eq. apply app_eq_len in Eq as [-> Eq]; [|unfold len in *; lia]. injection Eq as -> Eq.
    apply app_eq_len in Eq as [-> Eq]; [|unfold len in *; lia]. injection Eq as -> ->. auto. }
  assert (Wh : wf (a ++ b ++ c ++ d ++ e)).
  { repeat (rewrite wf_app in * || rewrite wf_cons in * ). tauto. } clear W.
  explode a La. explode b Lb. explode c Lc. explode d Ld. explode e Le. clear La Lb Lc Ld Le.
  unfold parse_dashed. cbn [app].
  match goal with |- context [at_ ?s 8] => change (@at_ no_err s 8) with (@Ret no_err _ x1); change (@at_ no_err s 13) with (@Ret no_err _ x2); change (@at_ no_err s 18) with (@Ret no_err _ x3); change (@at_ no_err s 23) with (@Ret no_err _ x4) end.
  cbn [bind]. destruct (N.eqb_spec x1 45) as [->|X1]; cbn [negb]; [|right; eexists; split; [reflexivity|]; intros u D; apply ND in D; tauto].
  destruct (N.eqb_spec x2 45) as [->|X2]; cbn [negb]; [|right; eexists; split; [reflexivity|]; intros u D; apply ND in D; tauto].
  destruct (N.eqb_spec x3 45) as [->|X3]; cbn [negb]; [|right; eexists; split; [reflexivity|]; intros u D; apply ND in D; tauto].
  destruct (N.eqb_spec x4 45) as [->|X4]; cbn [negb]; [|right; eexists; split; [reflexivity|]; intros u D; apply ND in D; tauto].
  cbn [app] in *.
  match type of Wh with wf [?a0;?a1;?a2;?a3;?a4;?a5;?a6;?a7;?b0;?b1;?b2;?b3;?c0;?c1;?c2;?c3;?d0;?d1;?d2;?d3;?e0;?e1;?e2;?e3;?e4;?e5;?e6;?e7;?e8;?e9;?e10;?e11] =>
    set (ps := [(a0,a1);(a2,a3);(a4,a5);(a6,a7);(b0,b1);(b2,b3);(c0,c1);(c2,c3);(d0,d1);(d2,d3);(e0,e1);(e2,e3);(e4,e5);(e6,e7);(e8,e9);(e10,e11)]) end.
  match goal with |- context [fill _ ?s _ _ ?xs] => destruct (fill_spec false s ps xs zero_uuid 0) as [(vs & V1 & V2)|(r & R1 & R2)] end.
  - exact Wh.
  - unfold ps. repeat (constructor; [split; reflexivity|]). constructor.
  - left. exists vs. assert (Lv := hexes_len _ _ V1). cbn [ps flat length] in Lv. rewrite puts_all in V2 by lia. split; [|exact V2].
    match goal with |- dashed [?a0;?a1;?a2;?a3;?a4;?a5;?a6;?a7;?x1;?b0;?b1;?b2;?b3;?x2;?c0;?c1;?c2;?c3;?x3;?d0;?d1;?d2;?d3;?x4;?e0;?e1;?e2;?e3;?e4;?e5;?e6;?e7;?e8;?e9;?e10;?e11] _ =>
      exists [a0;a1;a2;a3;a4;a5;a6;a7], [b0;b1;b2;b3], [c0;c1;c2;c3], [d0;d1;d2;d3], [e0;e1;e2;e3;e4;e5;e6;e7;e8;e9;e10;e11] end. repeat split. exact V1.
  - right. exists r. split; [exact R1|]. intros u D. apply ND in D as (_ & _ & _ & _ & D). exact (R2 _ D).
Qed.

Lemma plain_spec : forall s, length s = 32%nat -> wf s ->
  (exists u, hexes s u /\ length u = 16%nat /\ fill true s zero_uuid 0 [0; 2; 4; 6; 8; 10; 12; 14; 16; 18; 20; 22; 24; 26; 28; 30] = Ret (u, None)) \/
  (exists r, fill true s zero_uuid 0 [0; 2; 4; 6; 8; 10; 12; 14; 16; 18; 20; 22; 24; 26; 28; 30] = Ret (r, Some BadFormat) /\ forall u, ~ hexes s u).
Proof.
  intros s L W. explode s L. clear L.
  match type of W with wf [?a0;?a1;?a2;?a3;?a4;?a5;?a6;?a7;?b0;?b1;?b2;?b3;?c0;?c1;?c2;?c3;?d0;?d1;?d2;?d3;?e0;?e1;?e2;?e3;?e4;?e5;?e6;?e7;?e8;?e9;?e10;?e11] =>
    set (ps := [(a0,a1);(a2,a3);(a4,a5);(a6,a7);(b0,b1);(b2,b3);(c0,c1);(c2,c3);(d0,d1);(d2,d3);(e0,e1);(e2,e3);(e4,e5);(e6,e7);(e8,e9);(e10,e11)]) end.
  match goal with |- context [fill _ ?s _ _ ?xs] => destruct (fill_spec true s ps xs zero_uuid 0) as [(vs & V1 & V2)|(r & R1 & R2)] end.
  - exact W.
  - unfold ps. repeat (constructor; [split; reflexivity|]). constructor.
  - left. exists vs. assert (Lv := hexes_len _ _ V1). cbn [ps flat length] in Lv. rewrite puts_all in V2 by lia. split; [exact V1|split; [lia|exact V2]].
  - right. exists r. split; [exact R1|exact R2].
Qed.

(** ** Parse *)
Lemma lower_same : forall p q, Forall (fun b => b < 65 \/ (97 <= b /\ b < 128)) q -> (map lower p = q <-> Forall2 same_letter p q).
Proof.
  induction p as [|a p IH]; intros q Q; cbn [map].
  - split; intro E; [subst; constructor|inversion E; reflexivity].
  - destruct q as [|b q]; [split; intro E; [discriminate|inversion E]|]. inversion Q as [|? ? Q1 Q2]; subst. split; intro E.
    + injection E as E1 E2. constructor; [|apply IH; assumption]. unfold lower in E1. unfold same_letter. destruct ((65 <=? a) && (a <=? 90)) eqn:C; lia.
    + inversion E as [|? ? ? ? E1 E2]; subst. f_equal; [|apply IH; assumption]. unfold same_letter in E1. unfold lower. destruct ((65 <=? a) && (a <=? 90)) eqn:C; lia.
Qed.

Lemma Forall2_len : forall A B (R : A -> B -> Prop) l l', Forall2 R l l' -> length l = length l'.
Proof. intros A B R l l' F. induction F; cbn; auto. Qed.

Lemma spelled_len : forall s u, spelled s u -> (length s = 36 \/ length s = 45 \/ length s = 38 \/ length s = 32)%nat /\ length u = 16%nat /\ wf u.
Proof.
  intros s u [D|[(p & r & -> & P & D)|[(x & r & y & -> & D)|[L X]]]].
  - apply dashed_len in D. tauto.
  - apply dashed_len in D as (D1 & D2 & D3). apply Forall2_len in P. rewrite app_length, P, D1. auto.
  - apply dashed_len in D as (D1 & D2 & D3). cbn [length]. rewrite app_length, D1. auto 6.
  - assert (A := hexes_len _ _ X). assert (B := hexes_wf _ _ X). unfold len in L. split; [lia|split; [lia|exact B]].
Qed.

Lemma spelled_36 : forall s u, length s = 36%nat -> spelled s u -> dashed s u.
Proof.
  intros s u L [D|[(p & r & -> & P & D)|[(x & r & y & -> & D)|[L' X]]]]; [exact D| | |].
  - apply dashed_len in D as (D1 & _). apply Forall2_len in P. rewrite app_length, P, D1 in L. discriminate.
  - apply dashed_len in D as (D1 & _). cbn [length] in L. rewrite app_length, D1 in L. discriminate.
  - unfold len in L'. lia.
Qed.
Lemma spelled_45 : forall p r u, length p = 9%nat -> length r = 36%nat -> spelled (p ++ r) u -> Forall2 same_letter p urn /\ dashed r u.
Proof.
  intros p r u L L2 [D|[(p' & r' & E & P & D)|[(x & r' & y & E & D)|[L' X]]]].
  - apply dashed_len in D as (D & _). rewrite app_length in D. lia.
  - assert (P' := Forall2_len _ _ _ _ _ P). cbn [length] in P'. apply app_eq_len in E as [-> ->]; [|unfold len; lia]. split; assumption.
  - apply dashed_len in D as (D & _). apply (f_equal (@length N)) in E. cbn [length] in E. rewrite !app_length in E. cbn [length] in E. lia.
  - unfold len in L'. rewrite app_length in L'. lia.
Qed.
Lemma spelled_38 : forall x r y u, length r = 36%nat -> spelled (x :: r ++ [y]) u -> dashed r u.
Proof.
  intros x r y u L [D|[(p' & r' & E & P & D)|[(x' & r' & y' & E & D)|[L' X]]]].
  - apply dashed_len in D as (D & _). cbn [length] in D. rewrite app_length in D. cbn [length] in D. lia.
  - apply dashed_len in D as (D & _). apply Forall2_len in P. cbn [length] in P. apply (f_equal (@length N)) in E. cbn [length] in E. rewrite !app_length in E. cbn [length] in E. lia.
  - apply dashed_len in D as D'. injection E as _ E. apply app_eq_len in E as [-> _]; [exact D|unfold len; lia].
  - unfold len in L'. cbn [length] in L'. rewrite app_length in L'. lia.
Qed.
Lemma spelled_32 : forall s u, length s = 32%nat -> spelled s u -> hexes s u.
Proof.
  intros s u L [D|[(p & r & -> & P & D)|[(x & r & y & -> & D)|[L' X]]]]; [| | |exact X].
  - apply dashed_len in D as (D & _). lia.
  - apply dashed_len in D as (D1 & _). rewrite app_length in L. lia.
  - apply dashed_len in D as (D1 & _). cbn [length] in L. rewrite app_length in L. lia.
Qed.

Lemma spelled_fun : forall s u u', spelled s u -> spelled s u' -> u = u'.
Proof.
  intros s u u' A B. assert (L := proj1 (spelled_len s u A)). destruct L as [L|[L|[L|L]]].
  - apply spelled_36 in A, B; try exact L. eapply dashed_fun; eassumption.
  - rewrite <- (firstn_skipn 9 s) in A, B. apply spelled_45 in A, B; try (rewrite firstn_length_le by lia; reflexivity); try (rewrite skipn_length; lia). destruct A as [_ A], B as [_ B]. eapply dashed_fun; eassumption.
  - destruct s as [|x s]; [discriminate|]. destruct (exists_last (l := s)) as (r & y & ->); [intros ->; discriminate|]. cbn [length] in L. rewrite app_length in L. cbn [length] in L.
    apply spelled_38 in A, B; try lia. eapply dashed_fun; eassumption.
  - apply spelled_32 in A, B; try exact L. eapply hexes_fun; eassumption.
Qed.

(** Which error, if any. *)
Definition verdict (s : bytes) : option perr -> Prop := fun e =>
  match e with
  | None => exists u, spelled s u
  | Some (BadLength n) => n = len s /\ ~ In (len s) [32; 36; 38; 45]
  | Some BadPrefix => len s = 45 /\ ~ Forall2 same_letter (firstn 9 s) urn
  | Some BadFormat => In (len s) [32; 36; 38; 45] /\ (len s = 45 -> Forall2 same_letter (firstn 9 s) urn) /\ forall u, ~ spelled s u
  end.

Lemma urn_small : Forall (fun b => b < 65 \/ (97 <= b /\ b < 128)) urn.
Proof. repeat constructor; lia. Qed.

Theorem parse_verdict : forall s, wf s -> exists r e, Parse s = Ret (r, e) /\ verdict s e /\ (e = None -> spelled s r).
Proof.
  intros s W. unfold Parse. destruct (N.eqb_spec (len s) 36) as [L36|L36].
  { destruct (parse_dashed_spec s [] (len_nat _ s 36 L36) W) as [(u & D & E)|(r & E & D)]; rewrite app_nil_r in E.
    - exists u, None. split; [exact E|]. cbn [verdict]. split; [exists u; left; exact D|intros _; left; exact D].
    - exists r, (Some BadFormat). split; [exact E|]. cbn [verdict]. split; [|discriminate]. split; [cbn [In]; auto|split; [lia|]]. intros u X. apply spelled_36 in X; [exact (D _ X)|exact (len_nat _ s 36 L36)]. }
  destruct (N.eqb_spec (len s) (36 + 9)) as [L45|L45].
  { change (36 + 9) with 45 in L45. assert (L := len_nat _ s 45 L45). unfold slice_to, slice_from. rewrite L45. change (9 <=? 45) with true. cbv beta iota. change (N.to_nat 9) with 9%nat. cbn [bind].
    destruct (bytes_equal (map lower (firstn 9 s)) urn) eqn:B; cbn [negb].
    - apply bytes_equal_iff in B. apply lower_same in B; [|exact urn_small].
      destruct (parse_dashed_spec (skipn 9 s) []) as [(u & D & E)|(r & E & D)]; [rewrite skipn_length; lia|apply wf_skipn; exact W| |]; rewrite app_nil_r in E.
      + exists u, None. split; [exact E|]. assert (X : spelled s u) by (right; left; exists (firstn 9 s), (skipn 9 s); rewrite firstn_skipn; auto). split; [exists u; exact X|intros _; exact X].
      + exists r, (Some BadFormat). split; [exact E|]. cbn [verdict]. split; [|discriminate]. split; [rewrite L45; cbn [In]; auto|split; [intros _; exact B|]]. intros u X. rewrite <- (firstn_skipn 9 s) in X.
        apply spelled_45 in X; [exact (D _ (proj2 X))|rewrite firstn_length_le; lia|rewrite skipn_length; lia].
    - exists zero_uuid, (Some BadPrefix). split; [reflexivity|]. cbn [verdict]. split; [|discriminate]. split; [exact L45|]. intro X. apply lower_same in X; [|exact urn_small]. apply bytes_equal_iff in X. congruence. }
  destruct (N.eqb_spec (len s) (36 + 2)) as [L38|L38].
  { change (36 + 2) with 38 in L38. assert (L := len_nat _ s 38 L38). unfold slice_from. rewrite L38. change (1 <=? 38) with true. cbv beta iota. change (N.to_nat 1) with 1%nat. cbn [bind].
    destruct s as [|x s]; [discriminate|]. destruct (exists_last (l := s)) as (r & y & ->); [intros ->; discriminate|]. cbn [length] in L. rewrite app_length in L. cbn [length] in L. cbn [skipn].
    apply wf_cons in W as [_ W]. apply wf_app in W as [W _].
    destruct (parse_dashed_spec r [y]) as [(u & D & E)|(q & E & D)]; [lia|exact W| |].
    - exists u, None. split; [exact E|]. assert (X : spelled (x :: r ++ [y]) u) by (right; right; left; exists x, r, y; auto). split; [exists u; exact X|intros _; exact X].
    - exists q, (Some BadFormat). split; [exact E|]. cbn [verdict]. split; [|discriminate]. split; [rewrite L38; cbn [In]; auto|split; [lia|]]. intros u X. apply spelled_38 in X; [exact (D _ X)|lia]. }
  destruct (N.eqb_spec (len s) 32) as [L32|L32].
  { assert (L := len_nat _ s 32 L32). destruct (plain_spec s L W) as [(u & D & _ & E)|(r & E & D)].
    - exists u, None. split; [exact E|]. assert (X : spelled s u) by (right; right; right; auto). split; [exists u; exact X|intros _; exact X].
    - exists r, (Some BadFormat). split; [exact E|]. cbn [verdict]. split; [|discriminate]. split; [rewrite L32; cbn [In]; auto|split; [lia|]]. intros u X. apply spelled_32 in X; [exact (D _ X)|exact L]. }
  exists zero_uuid, (Some (BadLength (len s))). split; [reflexivity|]. cbn [verdict In]. split; [|discriminate]. split; [reflexivity|]. change (36 + 9) with 45 in L45. change (36 + 2) with 38 in L38. intuition congruence.
Qed.

Theorem parse_iff : forall s u, wf s -> (Parse s = Ret (u, None) <-> spelled s u).
Proof.
  intros s u W. destruct (parse_verdict s W) as (r & e & E & V & K). rewrite E. split.
  - intro X. injection X as -> ->. apply K. reflexivity.
  - intro X. destruct e as [e|].
    + exfalso. destruct e; cbn [verdict] in V.
      * destruct V as [V1 V2]. apply V2. assert (L := len_nat _ s 45 V1). rewrite <- (firstn_skipn 9 s) in X. apply spelled_45 in X; [exact (proj1 X)|rewrite firstn_length_le; lia|rewrite skipn_length; lia].
      * destruct V as (_ & _ & V). exact (V _ X).
      * destruct V as [_ V]. apply spelled_len in X as (L & _). apply V. unfold len. cbn [In]. lia.
    + do 2 f_equal. eapply spelled_fun; [|exact X]. apply K. reflexivity.
Qed.

Lemma verdict_fun : forall s e e', verdict s e -> verdict s e' -> e = e'.
Proof.
  assert (P : forall s u, len s = 45 -> spelled s u -> Forall2 same_letter (firstn 9 s) urn).
  { intros s u V X. assert (L := len_nat _ s 45 V). rewrite <- (firstn_skipn 9 s) in X. apply spelled_45 in X; [exact (proj1 X)|rewrite firstn_length_le; lia|rewrite skipn_length; lia]. }
  assert (Q : forall s u, spelled s u -> In (len s) [32; 36; 38; 45]).
  { intros s u X. apply spelled_len in X as (L & _). unfold len. cbn [In]. lia. }
  intros s [[| |n]|] [[| |n']|] A B; cbn [verdict] in A, B; try reflexivity; try solve [destruct A as [A _], B as [B _]; do 2 f_equal; congruence]; exfalso.
  - destruct A as [A1 A2], B as (B1 & B2 & B3). auto.
  - destruct A as [A1 A2], B as (B1 & B2). apply B2. rewrite A1. cbn; auto 6.
  - destruct A as [A1 A2], B as (u & B). eauto.
  - destruct B as [B1 B2], A as (A1 & A2 & A3). auto.
  - destruct A as (A & _), B as (_ & B). auto.
  - destruct A as (_ & _ & A), B as (u & B). exact (A _ B).
  - destruct B as [B1 B2], A as (A1 & A2). apply A2. rewrite B1. cbn; auto 6.
  - destruct B as (B & _), A as (_ & A). auto.
  - destruct A as [_ A], B as [u B]. eauto.
  - destruct B as [B1 B2], A as (u & A). eauto.
  - destruct B as (_ & _ & B), A as (u & A). exact (B _ A).
  - destruct B as [_ B], A as [u A]. eauto.
Qed.

Theorem parse_error_iff : forall s e, wf s -> ((exists r, Parse s = Ret (r, e)) <-> verdict s e).
Proof.
  intros s e W. destruct (parse_verdict s W) as (r & e' & E & V & _). split.
  - intros [r' E']. rewrite E in E'. injection E' as _ ->. exact V.
  - intro V'. rewrite (verdict_fun s e e' V' V). exists r. exact E.
Qed.

(** ** String *)
Lemma hex_digit : forall v, v < 16 -> digit (nth (N.to_nat v) hextable 0) v /\ lower_hex (nth (N.to_nat v) hextable 0).
Proof.
  intros v B. assert (C : v = 0 \/ v = 1 \/ v = 2 \/ v = 3 \/ v = 4 \/ v = 5 \/ v = 6 \/ v = 7 \/ v = 8 \/ v = 9 \/ v = 10 \/ v = 11 \/ v = 12 \/ v = 13 \/ v = 14 \/ v = 15) by lia.
  unfold digit, lower_hex. repeat (destruct C as [->|C]; [vm_compute nth; lia|]). subst v. vm_compute nth. lia.
Qed.

Lemma hex_encode_spec : forall src, wf src -> hexes (hex_encode src) src /\ Forall lower_hex (hex_encode src) /\ length (hex_encode src) = (2 * length src)%nat.
Proof.
  induction src as [|v src IH]; intro W; [repeat constructor|]. apply wf_cons in W as [B W]. destruct (IH W) as (A1 & A2 & A3). cbn [hex_encode].
  assert (S : N.shiftr v 4 = v / 16) by (rewrite N.shiftr_div_pow2; reflexivity). assert (L : N.land v 0x0f = v mod 16) by (apply (land_ones_mod v 4)). rewrite S, L.
  destruct (hex_digit (v / 16)) as [D1 D2]; [lia|]. destruct (hex_digit (v mod 16)) as [E1 E2]; [lia|]. split; [|split].
  - replace (v :: src) with (v / 16 * 16 + v mod 16 :: src) by (f_equal; lia). constructor; assumption.
  - constructor; [assumption|constructor; assumption].
  - cbn [length]. lia.
Qed.

Lemma part_len : forall u a b, length u = 16%nat -> (a <= b)%nat -> (b <= 16)%nat -> length (part u a b) = (b - a)%nat.
Proof. intros u a b L A B. unfold part. rewrite firstn_length_le; [reflexivity|]. rewrite skipn_length. lia. Qed.
Lemma part_wf : forall u a b, wf u -> wf (part u a b).
Proof. intros. unfold part. apply wf_firstn, wf_skipn. assumption. Qed.
Lemma parts : forall u, length u = 16%nat -> u = part u 0 4 ++ part u 4 6 ++ part u 6 8 ++ part u 8 10 ++ part u 10 16.
Proof. intros u L. explode u L. reflexivity. Qed.
Lemma hexes_app : forall s u, hexes s u -> forall s' u', hexes s' u' -> hexes (s ++ s') (u ++ u').
Proof. intros s u H. induction H; intros; cbn [app]; [assumption|]. constructor; auto. Qed.

Definition text_of (u : uuid) : bytes :=
  hex_encode (part u 0 4) ++ 45 :: hex_encode (part u 4 6) ++ 45 :: hex_encode (part u 6 8) ++ 45 :: hex_encode (part u 8 10) ++ 45 :: hex_encode (part u 10 16).

Lemma encodeHex_at : forall u pre tail, length u = 16%nat -> wf u -> length tail = 36%nat -> encodeHex (pre ++ tail) (len pre) u = Ret (pre ++ text_of u).
Proof.
  intros u pre tail L W T. unfold encodeHex, text_of.
  assert (L1 : length (hex_encode (part u 0 4)) = 8%nat) by (destruct (hex_encode_spec (part u 0 4)) as (_ & _ & E); [apply part_wf; exact W|]; rewrite E, part_len by (try exact L; lia); reflexivity).
  assert (L2 : length (hex_encode (part u 4 6)) = 4%nat) by (destruct (hex_encode_spec (part u 4 6)) as (_ & _ & E); [apply part_wf; exact W|]; rewrite E, part_len by (try exact L; lia); reflexivity).
  assert (L3 : length (hex_encode (part u 6 8)) = 4%nat) by (destruct (hex_encode_spec (part u 6 8)) as (_ & _ & E); [apply part_wf; exact W|]; rewrite E, part_len by (try exact L; lia); reflexivity).
  assert (L4 : length (hex_encode (part u 8 10)) = 4%nat) by (destruct (hex_encode_spec (part u 8 10)) as (_ & _ & E); [apply part_wf; exact W|]; rewrite E, part_len by (try exact L; lia); reflexivity).
  assert (L5 : length (hex_encode (part u 10 16)) = 12%nat) by (destruct (hex_encode_spec (part u 10 16)) as (_ & _ & E); [apply part_wf; exact W|]; rewrite E, part_len by (try exact L; lia); reflexivity).
  generalize dependent (hex_encode (part u 0 4)). generalize dependent (hex_encode (part u 4 6)). generalize dependent (hex_encode (part u 6 8)). generalize dependent (hex_encode (part u 8 10)). generalize dependent (hex_encode (part u 10 16)).
  intros e Le d Ld c Lc b Lb a La. clear L W u.
  assert (X : forall acc t src, (length src <= length t)%nat -> put_at (E := no_err) ((pre ++ acc) ++ t) (len pre + len acc) src = Ret (((pre ++ acc) ++ src) ++ skipn (length src) t)).
  { intros acc t src B. rewrite <- len_app. rewrite put_at_step by (unfold len; lia). rewrite <- app_assoc. reflexivity. }
  rewrite <- (app_nil_r pre) at 1.
  replace (len pre) with (len pre + len (@nil N)) at 1 by (rewrite len_nil; lia).
  rewrite X by lia. cbn [bind]. rewrite <- app_assoc. cbn [app].
  assert (Y : forall acc t src n, len acc = n -> (length src <= length t)%nat -> put_at (E := no_err) (pre ++ acc ++ t) (len pre + n) src = Ret (pre ++ (acc ++ src) ++ skipn (length src) t)).
  { intros acc t src n <- B. rewrite app_assoc, X by exact B. rewrite <- !app_assoc. reflexivity. }
  explode tail T. explode a La. explode b Lb. explode c Lc. explode d Ld. explode e Le. cbn [app length skipn].
  rewrite app_nil_r.
  match goal with |- context [put_at (pre ++ ?l) (len pre + 8)] => change l with (firstn 8 l ++ skipn 8 l) end. rewrite Y by (try reflexivity; cbn; lia). cbn [bind app length skipn firstn].
  match goal with |- context [put_at (pre ++ ?l) (len pre + 9)] => change l with (firstn 9 l ++ skipn 9 l) end. rewrite Y by (try reflexivity; cbn; lia). cbn [bind app length skipn firstn].
  match goal with |- context [put_at (pre ++ ?l) (len pre + 13)] => change l with (firstn 13 l ++ skipn 13 l) end. rewrite Y by (try reflexivity; cbn; lia). cbn [bind app length skipn firstn].
  match goal with |- context [put_at (pre ++ ?l) (len pre + 14)] => change l with (firstn 14 l ++ skipn 14 l) end. rewrite Y by (try reflexivity; cbn; lia). cbn [bind app length skipn firstn].
  match goal with |- context [put_at (pre ++ ?l) (len pre + 18)] => change l with (firstn 18 l ++ skipn 18 l) end. rewrite Y by (try reflexivity; cbn; lia). cbn [bind app length skipn firstn].
  match goal with |- context [put_at (pre ++ ?l) (len pre + 19)] => change l with (firstn 19 l ++ skipn 19 l) end. rewrite Y by (try reflexivity; cbn; lia). cbn [bind app length skipn firstn].
  match goal with |- context [put_at (pre ++ ?l) (len pre + 23)] => change l with (firstn 23 l ++ skipn 23 l) end. rewrite Y by (try reflexivity; cbn; lia). cbn [bind app length skipn firstn].
  match goal with |- context [put_at (pre ++ ?l) (len pre + 24)] => change l with (firstn 24 l ++ skipn 24 l) end. rewrite Y by (try reflexivity; cbn; lia). cbn [bind app length skipn firstn].
  reflexivity.
Qed.

Lemma text_dashed : forall u, length u = 16%nat -> wf u -> dashed (text_of u) u /\ Forall (fun c => lower_hex c \/ c = 45) (text_of u).
Proof.
  intros u L W. destruct (hex_encode_spec (part u 0 4) (part_wf _ _ _ W)) as (A1 & A2 & A3). destruct (hex_encode_spec (part u 4 6) (part_wf _ _ _ W)) as (B1 & B2 & B3).
  destruct (hex_encode_spec (part u 6 8) (part_wf _ _ _ W)) as (C1 & C2 & C3). destruct (hex_encode_spec (part u 8 10) (part_wf _ _ _ W)) as (D1 & D2 & D3). destruct (hex_encode_spec (part u 10 16) (part_wf _ _ _ W)) as (E1 & E2 & E3).
  rewrite part_len in A3, B3, C3, D3, E3 by (try exact L; lia). split.
  - exists (hex_encode (part u 0 4)), (hex_encode (part u 4 6)), (hex_encode (part u 6 8)), (hex_encode (part u 8 10)), (hex_encode (part u 10 16)). split; [reflexivity|].
    unfold len. rewrite A3, B3, C3, D3, E3. repeat split. rewrite (parts u L) at 6. repeat (apply hexes_app; [assumption|]). assumption.
  - assert (Z : forall l, Forall lower_hex l -> Forall (fun c => lower_hex c \/ c = 45) l) by (intros l F; eapply Forall_impl; [|exact F]; auto).
    unfold text_of. repeat (apply Forall_app; split; [auto|]; constructor; [auto|]). auto.
Qed.

Theorem string_proof : forall u, length u = 16%nat -> wf u -> exists t, String u = Ret t /\ dashed t u /\ Forall (fun c => lower_hex c \/ c = 45) t.
Proof.
  intros u L W. exists (text_of u). split; [|apply text_dashed; assumption]. exact (encodeHex_at u [] (repeat 0 36) L W eq_refl).
Qed.
Theorem urn_proof : forall u, length u = 16%nat -> wf u -> exists t, URN u = Ret ([117; 114; 110; 58; 117; 117; 105; 100; 58] ++ t) /\ String u = Ret t.
Proof.
  intros u L W. exists (text_of u). split; [|exact (encodeHex_at u [] (repeat 0 36) L W eq_refl)].
  exact (encodeHex_at u urn (repeat 0 36) L W eq_refl).
Qed.

Lemma dashed_wf : forall s u, dashed s u -> wf s.
Proof.
  assert (H : forall s u, hexes s u -> wf s) by (intros s u X; induction X; [constructor|]; unfold digit in *; repeat (apply wf_cons; split; [lia|]); assumption).
  intros s u (a & b & c & d & e & -> & _ & _ & _ & _ & _ & X). apply H in X. repeat (rewrite wf_app in * || rewrite wf_cons in * ). intuition; lia.
Qed.

Theorem round_trip_proof : forall u, length u = 16%nat -> wf u -> (exists t, String u = Ret t /\ Parse t = Ret (u, None)) /\ (exists t, URN u = Ret t /\ Parse t = Ret (u, None)).
Proof.
  intros u L W. destruct (string_proof u L W) as (t & S & D & _). split.
  - exists t. split; [exact S|]. apply parse_iff; [eapply dashed_wf; exact D|left; exact D].
  - destruct (urn_proof u L W) as (t' & U & S'). assert (t' = t) as -> by congruence. eexists. split; [exact U|]. apply parse_iff.
    + apply wf_app. split; [repeat constructor; reflexivity|eapply dashed_wf; exact D].
    + right. left. eexists _, t. split; [reflexivity|split; [|exact D]]. repeat constructor.
Qed.
Theorem string_inj_proof : forall u v, length u = 16%nat -> wf u -> length v = 16%nat -> wf v -> String u = String v -> u = v.
Proof.
  intros u v Lu Wu Lv Wv E. destruct (string_proof u Lu Wu) as (t & S & D & _). destruct (string_proof v Lv Wv) as (t' & S' & D' & _). assert (t' = t) as -> by congruence. eapply dashed_fun; eassumption.
Qed.

Theorem unmarshal_text_proof : forall old data, wf data ->
  (forall u, UnmarshalText old data = Ret (u, None) <-> spelled data u) /\
  (forall u e, UnmarshalText old data = Ret (u, Some e) <-> u = old /\ verdict data (Some e)).
Proof.
  intros old data W. destruct (parse_verdict data W) as (r & e & E & V & K). unfold UnmarshalText. rewrite E. cbn [bind]. destruct e as [x|]; split.
  - intro u. split; [discriminate|]. intro S. exfalso. apply parse_iff in S; [|exact W]. rewrite E in S. discriminate.
  - intros u e. split.
    + intro X. injection X as <- <-. auto.
    + intros [-> V']. assert (X := verdict_fun _ _ _ V V'). congruence.
  - intro u. rewrite <- (parse_iff data u W), E. split; intro X; injection X as ->; reflexivity.
  - intros u e. split; [discriminate|]. intros [_ V']. assert (X := verdict_fun _ _ _ V V'). discriminate.
Qed.
Theorem binary_proof : forall old data, length old = 16%nat ->
  UnmarshalBinary old data = if len data =? 16 then (data, None) else (old, Some (BadLength (len data))).
Proof.
  intros old data L. unfold UnmarshalBinary. destruct (N.eqb_spec (len data) 16) as [E|E]; [|reflexivity]. f_equal. unfold overlay. assert (E' := len_nat _ data 16 E).
  rewrite L, E', <- L, skipn_all, app_nil_r, L, <- E', firstn_all. reflexivity.
Qed.
