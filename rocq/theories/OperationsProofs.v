(** Lemmas about the operation list codec. *)
From Coq Require Import List NArith ZArith Lia Bool ZifyBool ZifyNat ZifyN.
From Verif Require Import Base BaseLemmas FramesSpec FramesProofs OperationsModel OperationsSpec.
Import ListNotations.
Open Scope N_scope.
Ltac Zify.zify_post_hook ::= Z.div_mod_to_equations.

Lemma bytes_equal_iff : forall a b, bytes_equal a b = true <-> a = b.
Proof.
  induction a as [|x a IH]; intros [|y b]; cbn; split; intro H; try discriminate; auto.
  - apply andb_true_iff in H as [H1 H2]. apply N.eqb_eq in H1. apply IH in H2. congruence.
  - injection H as -> ->. rewrite N.eqb_refl. apply IH. reflexivity.
Qed.

Lemma len2 : forall v, len (bytes2 v) = 2. Proof. reflexivity. Qed.
Lemma len4 : forall v, len (bytes4 v) = 4. Proof. reflexivity. Qed.
Lemma get2 : forall E v r, v < 65536 -> @get_be E 2 (bytes2 v ++ r) = Ret v.
Proof. intros. rewrite get_be_app by reflexivity. rewrite unbe_bytes2 by exact H. reflexivity. Qed.
Lemma get4 : forall E v r, v < 2^32 -> @get_be E 4 (bytes4 v ++ r) = Ret v.
Proof. intros. rewrite get_be_app by reflexivity. rewrite unbe_bytes4 by exact H. reflexivity. Qed.

(** ** Reading *)
Lemma read_op_spec : forall o tl, op_index o < 2^32 -> names_fit o ->
  read_op (entry_bytes o ++ tl) =
  do r <- get_be 2 tl ; do b <- slice_from tl (u16 (2 + r)) ; Ret (o, b).
Proof.
  intros [i ty dr ns nm] tl Hi [Hn1 Hn2]. cbn [op_index op_ns op_name] in *.
  unfold entry_bytes, read_op. cbn [op_index op_type op_dir op_ns op_name].
  rewrite <- !app_assoc. cbn [app index nth_error bind].
  change (ty :: dr :: bytes4 i ++ bytes2 (len ns) ++ ns ++ bytes2 (len nm) ++ nm ++ tl)
    with ([ty; dr] ++ bytes4 i ++ bytes2 (len ns) ++ ns ++ bytes2 (len nm) ++ nm ++ tl).
  rewrite slice_from_app by reflexivity. cbn [bind]. rewrite get4 by exact Hi. cbn [bind].
  rewrite (app_assoc [ty; dr]).
  rewrite slice_from_app by reflexivity. cbn [bind]. rewrite get2 by lia. cbn [bind].
  rewrite (app_assoc ([ty; dr] ++ bytes4 i)).
  rewrite slice_from_app by reflexivity. cbn [bind].
  rewrite slice_to_app by reflexivity. cbn [bind].
  rewrite slice_from_app by reflexivity. cbn [bind].
  rewrite get2 by lia. cbn [bind].
  rewrite slice_from_app by reflexivity. cbn [bind].
  rewrite slice_to_app by reflexivity. cbn [bind].
  rewrite slice_from_app by reflexivity. reflexivity.
Qed.

Lemma index_inv : forall E b i v, @index E b i = Ret v -> nth_error b i = Some v.
Proof. intros E b i v H. unfold index in H. destruct (nth_error b i); [congruence|discriminate]. Qed.

Lemma read_op_inv : forall buf o buf', wf buf -> read_op buf = Ret (o, buf') ->
  exists r gap after, op_in_range o /\ names_fit o /\ r < 65536 /\ gap ++ buf' = bytes2 r ++ after
    /\ len gap = (2 + r) mod 65536 /\ buf = entry_bytes o ++ gap ++ buf' /\ wf buf'.
Proof.
  intros buf o buf' Hwf H. unfold read_op in H.
  apply bind_ret in H as (ty & H0 & H). apply index_inv in H0.
  apply bind_ret in H as (dr & H1 & H). apply index_inv in H1.
  apply bind_ret in H as (b2 & H2 & H). apply slice_from_inv in H2 as (a2 & E2 & L2).
  destruct buf as [|x0 [|x1 buf]]; cbn in H0, H1; try discriminate.
  injection H0 as ->. injection H1 as ->.
  destruct a2 as [|y0 [|y1 [|? a2]]]; try (rewrite ?len_cons in L2; change (len (@nil N)) with 0 in L2; lia).
  cbn in E2. injection E2 as <- <- E2. subst b2.
  apply wf_cons in Hwf as [W0 Hwf]. apply wf_cons in Hwf as [W1 Hwf].
  apply bind_ret in H as (i & H2 & H). apply get_be_inv in H2 as (b6' & E3 & Hi); [|exact Hwf].
  rewrite be4_bytes4 in E3. subst buf.
  apply wf_app in Hwf as [_ Hwf].
  change (ty :: dr :: bytes4 i ++ b6') with ((ty :: dr :: bytes4 i) ++ b6') in H.
  rewrite slice_from_app in H by reflexivity. cbn [bind] in H.
  apply bind_ret in H as (nl & H2 & H). apply get_be_inv in H2 as (b8 & E4 & Hnl); [|exact Hwf].
  rewrite be2_bytes2 in E4. subst b6'. apply wf_app in Hwf as [_ Hwf].
  rewrite app_assoc in H. rewrite slice_from_app in H by reflexivity. cbn [bind] in H.
  apply bind_ret in H as (ns & H2 & H). apply slice_to_inv in H2 as (b9 & E5 & Lns). subst b8.
  rewrite slice_from_app in H by (symmetry; exact Lns). cbn [bind] in H. apply wf_app in Hwf as [Wns Hwf].
  apply bind_ret in H as (ol & H2 & H). apply get_be_inv in H2 as (b10 & E6 & Hol); [|exact Hwf].
  rewrite be2_bytes2 in E6. subst b9. apply wf_app in Hwf as [_ Hwf].
  rewrite slice_from_app in H by reflexivity. cbn [bind] in H.
  apply bind_ret in H as (nm & H2 & H). apply slice_to_inv in H2 as (b11 & E7 & Lnm). subst b10.
  rewrite slice_from_app in H by (symmetry; exact Lnm). cbn [bind] in H. apply wf_app in Hwf as [Wnm Hwf].
  apply bind_ret in H as (r & H2 & H). pose proof H2 as H3. apply get_be_inv in H2 as (after & E8 & Hr); [|exact Hwf].
  apply bind_ret in H as (rest & H4 & H). apply slice_from_inv in H4 as (gap & E9 & Lg).
  cbn in H. injection H as <- <-.
  rewrite be2_bytes2 in E8. subst b11.
  change (256 ^ N.of_nat 4) with (2^32) in Hi. change (256 ^ N.of_nat 2) with 65536 in *.
  exists r, gap, after. unfold op_in_range, names_fit, entry_bytes. cbn [op_index op_type op_dir op_ns op_name].
  rewrite Lns, Lnm. repeat split; auto; try lia.
  - rewrite <- E9. rewrite <- !app_assoc. reflexivity.
  - rewrite E9 in Hwf. apply wf_app in Hwf. tauto.
Qed.

Lemma read_op_len : forall buf o buf', read_op buf = Ret (o, buf') -> (length buf' + 10 <= length buf)%nat.
Proof.
  intros buf o buf' H. unfold read_op in H.
  apply bind_ret in H as (ty & _ & H). apply bind_ret in H as (dr & _ & H).
  apply bind_ret in H as (b2 & _ & H). apply bind_ret in H as (i & _ & H).
  apply bind_ret in H as (b6 & _ & H). apply bind_ret in H as (nl & _ & H).
  apply bind_ret in H as (b8 & H1 & H). apply slice_from_inv in H1 as (a & -> & L).
  apply bind_ret in H as (ns & _ & H).
  apply bind_ret in H as (b9 & H1 & H). apply slice_from_inv in H1 as (a1 & -> & L1).
  apply bind_ret in H as (ol & _ & H).
  apply bind_ret in H as (b10 & H1 & H). apply slice_from_inv in H1 as (a2 & -> & L2).
  apply bind_ret in H as (nm & _ & H).
  apply bind_ret in H as (b11 & H1 & H). apply slice_from_inv in H1 as (a3 & -> & L3).
  apply bind_ret in H as (r & _ & H).
  apply bind_ret in H as (b12 & H1 & H). apply slice_from_inv in H1 as (a4 & -> & L4).
  injection H as <- <-. rewrite !app_length. unfold len in *. lia.
Qed.

(** The fuel never matters. *)
Lemma read_ops_fuel : forall fuel fuel' n buf, (length buf <= fuel)%nat -> (length buf <= fuel')%nat ->
  read_ops fuel n buf = read_ops fuel' n buf.
Proof.
  induction fuel as [|fuel IH]; intros fuel' n buf L L'; cbn [read_ops].
  - destruct buf; [|cbn in L; lia]. destruct fuel'; cbn [read_ops]; destruct (n =? 0); reflexivity.
  - destruct fuel' as [|fuel'].
    + destruct buf; [|cbn in L'; lia]. cbn [read_ops]. destruct (n =? 0); reflexivity.
    + cbn [read_ops]. destruct (n =? 0); [reflexivity|].
      destruct (read_op buf) as [[o b]| |] eqn:E; cbn [bind]; try reflexivity.
      apply read_op_len in E. rewrite (IH fuel') by lia. reflexivity.
Qed.

Lemma read_ops_holds : forall fuel n buf t, wf buf -> read_ops fuel n buf = Ret t -> holds_entries t buf /\ len t = n.
Proof.
  induction fuel as [|fuel IH]; intros n buf t Hwf H; cbn [read_ops] in H.
  - destruct (N.eqb_spec n 0); [|discriminate]. injection H as <-. split; [constructor|subst; reflexivity].
  - destruct (N.eqb_spec n 0). { injection H as <-. split; [constructor|subst; reflexivity]. }
    apply bind_ret in H as ([o b] & H1 & H). apply bind_ret in H as (t' & H2 & H). injection H as <-.
    apply read_op_inv in H1 as (r & gap & after & A & B & C & D & E & -> & F); [|exact Hwf].
    destruct (IH _ _ _ F H2) as [G L]. split.
    + econstructor; eauto.
    + rewrite len_cons. lia.
Qed.

Lemma holds_read_ops : forall t buf fuel, holds_entries t buf -> (length buf <= fuel)%nat ->
  read_ops fuel (len t) buf = Ret t.
Proof.
  intros t buf fuel H; revert fuel. induction H as [|o t r gap rest after A B C D E _ IH]; intros fuel L.
  - destruct fuel; reflexivity.
  - assert (0 < length (entry_bytes o))%nat by (unfold entry_bytes; cbn; lia).
    rewrite !app_length in L. destruct fuel as [|fuel]; [lia|].
    cbn [read_ops]. rewrite len_cons. destruct (N.eqb_spec (1 + len t) 0); [lia|].
    rewrite read_op_spec; [|apply A|exact B].
    rewrite D, get2, <- D by exact C. cbn [bind].
    rewrite slice_from_app by (rewrite E; reflexivity). cbn [bind].
    replace (1 + len t - 1) with (len t) by lia. rewrite IH by lia. reflexivity.
Qed.

Lemma preamble_read : forall n body, n < 2^32 ->
  FromBytes (preamble n ++ body) = read_ops (length body) n body.
Proof.
  intros n body Hn. unfold FromBytes, preamble. rewrite <- !app_assoc.
  rewrite slice_to_app by reflexivity. cbn [bind].
  change (bytes_equal [0; 119; 114; 115] Magic) with true. cbn [negb].
  rewrite slice_from_app by reflexivity. cbn [bind].
  rewrite get2 by lia. cbn [bind N.eqb Pos.eqb negb].
  rewrite slice_from_app by reflexivity. cbn [bind].
  rewrite get4 by exact Hn. cbn [bind].
  rewrite slice_from_app by reflexivity. reflexivity.
Qed.

Lemma FromBytes_ret_inv : forall buf t, wf buf -> FromBytes buf = Ret t ->
  exists n body, n < 2^32 /\ buf = preamble n ++ body /\ wf body /\ read_ops (length body) n body = Ret t.
Proof.
  intros buf t Hwf H. unfold FromBytes in H.
  apply bind_ret in H as (m & H1 & H). apply slice_to_inv in H1 as (b4 & -> & L).
  destruct (bytes_equal m Magic) eqn:EM; [|discriminate]. apply bytes_equal_iff in EM. subst m. cbn [negb] in H.
  rewrite slice_from_app in H by (symmetry; exact L). cbn [bind] in H. apply wf_app in Hwf as [_ Hwf].
  apply bind_ret in H as (v & H1 & H). apply get_be_inv in H1 as (b6 & -> & Hv); [|exact Hwf].
  destruct (N.eqb_spec v 1); [|discriminate]. subst v. cbn [negb] in H. apply wf_app in Hwf as [_ Hwf].
  rewrite slice_from_app in H by reflexivity. cbn [bind] in H.
  apply bind_ret in H as (n & H1 & H). apply get_be_inv in H1 as (b10 & -> & Hn); [|exact Hwf].
  rewrite slice_from_app in H by (rewrite be_len; reflexivity). cbn [bind] in H. apply wf_app in Hwf as [_ Hwf].
  exists n, b10. repeat split; auto. unfold preamble. rewrite be4_bytes4. rewrite <- !app_assoc. reflexivity.
Qed.

Lemma FromBytes_iff : forall buf t, wf buf ->
  (FromBytes buf = Ret t <-> exists body, len t < 2^32 /\ buf = preamble (len t) ++ body /\ holds_entries t body).
Proof.
  intros buf t Hwf. split.
  - intro H. destruct (FromBytes_ret_inv _ _ Hwf H) as (n & body & Hn & -> & Wb & HR).
    apply read_ops_holds in HR as [HH <-]; [|exact Wb]. exists body. auto.
  - intros (body & Hn & -> & HH). rewrite preamble_read by exact Hn. apply holds_read_ops; [exact HH|lia].
Qed.

Lemma holds_concat : forall t, Forall op_in_range (map fst t) -> Forall names_fit (map fst t) ->
  Forall (fun '(_, r) => len r < 65534) t -> forall rest,
  holds_entries (map fst t) (concat (map (fun '(o, r) => entry_bytes o ++ bytes2 (len r) ++ r) t) ++ rest).
Proof.
  induction t as [|[o r] t IH]; intros A B C rest; cbn [map concat fst]; [constructor|].
  apply Forall_cons_iff in A as [A1 A2]. apply Forall_cons_iff in B as [B1 B2]. apply Forall_cons_iff in C as [C1 C2].
  rewrite <- !app_assoc.
  rewrite (app_assoc (bytes2 (len r)) r).
  eapply holds_cons; [exact A1|exact B1| | | |apply IH; auto].
  - instantiate (1 := len r). lia.
  - rewrite <- app_assoc. reflexivity.
  - rewrite len_app, len2. lia.
Qed.

(** ** Writing *)
Lemma adv_ok : forall p off n, off + n <= len p -> advance p off n = Ret (off + n).
Proof. intros. unfold advance. destruct (N.leb_spec (off + n) (len p)); [reflexivity|lia]. Qed.

Definition entry_with_reserved (o : operation) : bytes := entry_bytes o ++ bytes2 0.

Lemma entry_len : forall o, len (entry_with_reserved o) = 12 + len (op_ns o) + len (op_name o).
Proof. intro o. unfold entry_with_reserved, entry_bytes. rewrite !len_app, !len2, len4. change (len [op_type o; op_dir o]) with 2. lia. Qed.

Lemma put_step : forall E pre tail src pos, pos = len pre -> len src <= len tail ->
  @put_at E (pre ++ tail) pos src = Ret ((pre ++ src) ++ skipn (length src) tail).
Proof. intros; subst; apply put_at_step; assumption. Qed.
Lemma copy_step : forall E pre tail src pos, pos = len pre -> len src <= len tail ->
  @copy_at E (pre ++ tail) pos src = Ret ((pre ++ src) ++ skipn (length src) tail).
Proof. intros; subst; apply copy_at_step; assumption. Qed.

Lemma write_op_spec : forall pre tail o, op_type o < 256 -> op_dir o < 256 -> names_fit o ->
  len (entry_with_reserved o) <= len tail ->
  write_op (pre ++ tail) (len pre) o =
  Ret ((pre ++ entry_with_reserved o) ++ skipn (length (entry_with_reserved o)) tail, len (pre ++ entry_with_reserved o)).
Proof.
  intros pre tail [i ty dr ns nm] Ht Hd [Hn1 Hn2] HL. rewrite entry_len in HL.
  cbn [op_index op_type op_dir op_ns op_name] in *. unfold write_op. cbn [op_index op_type op_dir op_ns op_name].
  assert (E1 : u8 ty = ty) by (unfold u8; change (2^8) with 256; lia).
  assert (E2 : u8 dr = dr) by (unfold u8; change (2^8) with 256; lia).
  assert (E3 : u16 (len ns) = len ns) by (unfold u16; change (2^16) with 65536; lia).
  assert (E4 : u16 (len nm) = len nm) by (unfold u16; change (2^16) with 65536; lia).
  rewrite E1, E2, E3, E4, be4_bytes4, !be2_bytes2.
  Ltac lens := rewrite ?len_app, ?len_skipn, ?len2, ?len4, ?len_cons; change (len (@nil N)) with 0; unfold bytes2, bytes4; cbn [length]; unfold len in *; lia.
  rewrite put_step by lens. cbn [bind].
  rewrite put_step by lens. cbn [bind].
  rewrite put_step by lens. cbn [bind].
  rewrite adv_ok by lens. cbn [bind].
  rewrite put_step by lens. cbn [bind].
  rewrite adv_ok by lens. cbn [bind].
  rewrite copy_step by lens. cbn [bind].
  rewrite adv_ok by lens. cbn [bind].
  rewrite put_step by lens. cbn [bind].
  rewrite adv_ok by lens. cbn [bind].
  rewrite copy_step by lens. cbn [bind].
  rewrite adv_ok by lens. cbn [bind].
  rewrite put_step by lens. cbn [bind].
  rewrite adv_ok by lens. cbn [bind].
  unfold entry_with_reserved, entry_bytes. cbn [op_index op_type op_dir op_ns op_name].
  f_equal. f_equal.
  - change [ty; dr] with ([ty] ++ [dr]). rewrite !skipn_skipn, <- !app_assoc.
    repeat (apply f_equal2; [reflexivity|]). f_equal.
    rewrite !app_length. unfold bytes2, bytes4; cbn [length]. lia.
  - lens.
Qed.

Lemma table_size_len : forall t, table_size t = 10 + len (concat (map entry_with_reserved t)).
Proof.
  induction t as [|o t IH]; [reflexivity|]. cbn [table_size fold_right map concat].
  fold (table_size t). rewrite len_app, entry_len, IH. lia.
Qed.

Lemma ops_size_acc : forall t a, a + (table_size t - 10) < 2^32 ->
  fold_left (fun sz o => u32 (sz + u32 (12 + len (op_ns o) + len (op_name o)))) t a = a + (table_size t - 10).
Proof.
  induction t as [|o t IH]; intros a H; cbn [fold_left table_size fold_right] in *; [cbn in *; lia|].
  fold (table_size t) in *. pose proof (table_size_len t) as LT.
  unfold u32 in *. change (2^32) with 4294967296 in *.
  rewrite !N.mod_small by lia. rewrite IH by lia. lia.
Qed.
Lemma ops_size_spec : forall t, table_size t < 2^32 -> ops_size t = table_size t.
Proof.
  intros t H. unfold ops_size. pose proof (table_size_len t). rewrite ops_size_acc by lia. lia.
Qed.

Lemma write_ops_spec : forall t pre tail, Forall (fun o => op_type o < 256 /\ op_dir o < 256 /\ names_fit o) t ->
  len tail = len (concat (map entry_with_reserved t)) ->
  write_ops (pre ++ tail) (len pre) t = Ret (pre ++ concat (map entry_with_reserved t)).
Proof.
  induction t as [|o t IH]; intros pre tail HF HL; cbn [write_ops map concat] in *.
  - apply len_0 in HL. subst. reflexivity.
  - apply Forall_cons_iff in HF as [(A & B & C) HF]. rewrite len_app in HL.
    rewrite write_op_spec by (auto; lia). cbn [bind].
    rewrite IH; [rewrite <- app_assoc; reflexivity|exact HF|]. rewrite len_skipn. unfold len in *. lia.
Qed.

Lemma table_bytes_alt : forall t, table_bytes t = preamble (len t) ++ concat (map entry_with_reserved t).
Proof. reflexivity. Qed.

Lemma len_le_size : forall t, len t <= table_size t.
Proof.
  induction t as [|o t IH]; [cbn; lia|]. cbn [table_size fold_right]. fold (table_size t). rewrite len_cons. lia.
Qed.

Lemma ToBytes_spec : forall t, table_size t < 2^32 ->
  Forall (fun o => op_type o < 256 /\ op_dir o < 256 /\ names_fit o) t ->
  ToBytes t = Ret (table_bytes t).
Proof.
  intros t HS HF. unfold ToBytes. rewrite ops_size_spec by exact HS.
  set (buf := repeat 0 (N.to_nat (table_size t))).
  assert (LB : len buf = table_size t) by (unfold buf; rewrite len_repeat; lia).
  pose proof (table_size_len t) as TL. pose proof (len_le_size t) as LS.
  assert (EL : u32 (len t) = len t) by (unfold u32; change (2^32) with 4294967296 in *; lia).
  rewrite EL, be4_bytes4, be2_bytes2. clearbody buf.
  pose proof (copy_step no_err [] buf Magic 0 eq_refl) as P. cbn [app] in P. unfold Magic in P at 1.
  rewrite P by (rewrite LB; change (len [0; 119; 114; 115]) with 4; lia). cbn [bind].
  assert (L4 : len Magic = 4) by reflexivity.
  rewrite adv_ok by (rewrite len_app, len_skipn, L4; change (length Magic) with 4%nat; lia). cbn [bind].
  change (0 + 4) with 4.
  rewrite put_step; [|reflexivity|rewrite len_skipn, len2; change (length Magic) with 4%nat; lia]. cbn [bind].
  rewrite adv_ok by (rewrite !len_app, !len_skipn, L4, len2; change (length Magic) with 4%nat; change (length (bytes2 1)) with 2%nat; lia). cbn [bind].
  rewrite put_step; [|reflexivity|rewrite !len_skipn, len4; change (length Magic) with 4%nat; change (length (bytes2 1)) with 2%nat; lia]. cbn [bind].
  rewrite adv_ok by (rewrite !len_app, !len_skipn, L4, len2, len4; change (length Magic) with 4%nat; change (length (bytes2 1)) with 2%nat; change (length (bytes4 (len t))) with 4%nat; lia). cbn [bind].
  rewrite table_bytes_alt.
  change ((Magic ++ bytes2 1) ++ bytes4 (len t)) with (preamble (len t)).
  change (4 + 2 + 4) with (len (preamble (len t))).
  apply write_ops_spec; [exact HF|].
  rewrite !len_skipn. change (length Magic) with 4%nat. change (length (bytes2 1)) with 2%nat.
  change (length (bytes4 (len t))) with 4%nat. lia.
Qed.

Lemma op_range_fits : forall t, Forall op_in_range t -> Forall names_fit t ->
  Forall (fun o => op_type o < 256 /\ op_dir o < 256 /\ names_fit o) t.
Proof.
  intros t A B. rewrite Forall_forall in *. intros o Ho. specialize (A o Ho). specialize (B o Ho).
  unfold op_in_range in A. tauto.
Qed.

Lemma table_holds : forall t, Forall op_in_range t -> Forall names_fit t ->
  holds_entries t (concat (map entry_with_reserved t)).
Proof.
  intros t A B.
  pose proof (holds_concat (map (fun o => (o, @nil N)) t)) as H.
  rewrite !map_map in H. cbn [fst] in H. rewrite map_id in H. specialize (H A B).
  rewrite <- (app_nil_r (concat _)). apply H.
  rewrite Forall_map. apply Forall_forall. intros o _. change (len (@nil N)) with 0. lia.
Qed.

(** ** Well-formedness of everything written *)
Lemma overlay_wf : forall d s, wf d -> wf s -> wf (overlay d s).
Proof. intros. unfold overlay. apply wf_app. split; [apply wf_firstn|apply wf_skipn]; assumption. Qed.
Lemma copy_wf : forall E b off s b', @copy_at E b off s = Ret b' -> wf b -> wf s -> wf b'.
Proof.
  intros E b off s b' H Wb Ws. unfold copy_at in H. destruct (off <=? len b); [|discriminate]. injection H as <-.
  apply wf_app. split; [apply wf_firstn; exact Wb|]. apply overlay_wf; [apply wf_skipn|]; assumption.
Qed.
Lemma put_wf : forall E b off s b', @put_at E b off s = Ret b' -> wf b -> wf s -> wf b'.
Proof. intros E b off s b' H. unfold put_at in H. destruct (_ <=? _); [|discriminate]. eapply copy_wf; eauto. Qed.
Lemma u8_wf : forall v, wf [u8 v].
Proof. intro v. constructor; [|constructor]. unfold u8, is_byte. change (2^8) with 256. lia. Qed.

Lemma write_op_wf : forall p off o p' off', wf p -> wf (op_ns o) -> wf (op_name o) ->
  write_op p off o = Ret (p', off') -> wf p'.
Proof.
  intros p off o p' off' W1 W2 W3 H. unfold write_op in H. cbv zeta in H.
  repeat match type of H with
  | bind (put_at _ _ _) _ = _ => let q := fresh "q" in let X := fresh in
      apply bind_ret in H as (q & X & H); apply put_wf in X; [|first [eassumption|apply u8_wf|apply be_wf]..]
  | bind (copy_at _ _ _) _ = _ => let q := fresh "q" in let X := fresh in
      apply bind_ret in H as (q & X & H); apply copy_wf in X; [|eassumption..]
  | bind (advance _ _ _) _ = _ => let q := fresh "o" in
      apply bind_ret in H as (q & _ & H)
  end.
  injection H as <- <-. assumption.
Qed.

Lemma write_ops_wf : forall t p off p', wf p -> Forall op_in_range t -> write_ops p off t = Ret p' -> wf p'.
Proof.
  induction t as [|o t IH]; intros p off p' W HF H; cbn [write_ops] in H; [injection H as <-; exact W|].
  apply Forall_cons_iff in HF as [(_ & _ & _ & A & B) HF].
  apply bind_ret in H as ([q off'] & H1 & H). apply (IH q off'); [exact (write_op_wf p off o q off' W A B H1)|exact HF|exact H].
Qed.

Lemma ToBytes_wf : forall t bs, Forall op_in_range t -> ToBytes t = Ret bs -> wf bs.
Proof.
  intros t bs HF H. unfold ToBytes in H. cbv zeta in H.
  apply bind_ret in H as (q & X & H). apply copy_wf in X; [|apply wf_repeat; lia|apply wfb_wf; reflexivity].
  apply bind_ret in H as (o1 & _ & H).
  apply bind_ret in H as (q2 & X2 & H). apply put_wf in X2; [|assumption|apply be_wf].
  apply bind_ret in H as (o2 & _ & H).
  apply bind_ret in H as (q3 & X3 & H). apply put_wf in X3; [|assumption|apply be_wf].
  apply bind_ret in H as (o3 & _ & H).
  eapply write_ops_wf; eauto.
Qed.

Lemma holds_names_fit : forall t b, holds_entries t b -> Forall names_fit t.
Proof. induction 1; constructor; auto. Qed.

Theorem round_trip_iff : forall t, Forall op_in_range t -> table_size t < 2^32 ->
  ((exists bs, ToBytes t = Ret bs /\ FromBytes bs = Ret t) <-> Forall names_fit t).
Proof.
  intros t HR HS. split.
  - intros (bs & H1 & H2). apply FromBytes_iff in H2 as (body & _ & _ & HH); [|eapply ToBytes_wf; eauto].
    eapply holds_names_fit; eauto.
  - intro HF. exists (table_bytes t). split; [apply ToBytes_spec; [exact HS|apply op_range_fits; assumption]|].
    rewrite table_bytes_alt, preamble_read.
    + apply holds_read_ops; [apply table_holds; assumption|lia].
    + pose proof (len_le_size t). lia.
Qed.

Theorem ToBytes_injective : forall t t' bs, Forall op_in_range t -> Forall op_in_range t' ->
  Forall names_fit t -> Forall names_fit t' -> table_size t < 2^32 -> table_size t' < 2^32 ->
  ToBytes t = Ret bs -> ToBytes t' = Ret bs -> t = t'.
Proof.
  intros t t' bs R R' F F' S S' H H'.
  destruct (proj2 (round_trip_iff t R S) F) as (b1 & A1 & B1).
  destruct (proj2 (round_trip_iff t' R' S') F') as (b2 & A2 & B2). congruence.
Qed.

Theorem FromBytes_with_reserved : forall t rest, Forall op_in_range (map fst t) -> Forall names_fit (map fst t) ->
  Forall (fun '(_, r) => len r < 65534) t -> len t < 2^32 ->
  FromBytes (table_bytes_with t ++ rest) = Ret (map fst t).
Proof.
  intros t rest A B C D. unfold table_bytes_with. rewrite <- app_assoc, preamble_read by exact D.
  replace (len t) with (len (map fst t)) by (unfold len; rewrite map_length; reflexivity).
  apply holds_read_ops; [apply holds_concat; assumption|lia].
Qed.

Lemma read_ops_no_fail : forall fuel n buf e, read_ops fuel n buf <> Fail e.
Proof.
  assert (S1 : forall A (l : list A) n e, @slice_from ops_error A l n <> Fail e)
    by (intros; unfold slice_from; destruct (_ <=? _); discriminate).
  assert (S2 : forall A (l : list A) n e, @slice_to ops_error A l n <> Fail e)
    by (intros; unfold slice_to; destruct (_ <=? _); discriminate).
  assert (S3 : forall w l e, @get_be ops_error w l <> Fail e)
    by (intros; unfold get_be; destruct (_ <=? _); discriminate).
  assert (S4 : forall l i e, @index ops_error l i <> Fail e)
    by (intros; unfold index; destruct (nth_error l i); discriminate).
  assert (B : forall A B (m : outcome ops_error A) (k : A -> outcome ops_error B) e, m <> Fail e ->
     (forall a, k a <> Fail e) -> bind m k <> Fail e).
  { intros A B [a|e'|] k e H1 H2; cbn; auto; try discriminate. intro X. injection X as ->. apply H1. reflexivity. }
  assert (R : forall buf e, read_op buf <> Fail e).
  { intros buf e. unfold read_op. repeat (apply B; [auto|intro]). discriminate. }
  induction fuel as [|fuel IH]; intros n buf e; cbn [read_ops]; destruct (n =? 0); try discriminate.
  apply B; [apply R|]. intros [o b]. apply B; [apply IH|]. intros; discriminate.
Qed.

Theorem FromBytes_fail_iff : forall buf e, wf buf ->
  (FromBytes buf = Fail e <->
   (e = ErrInvalidMagicNumber /\ exists m r, buf = m ++ r /\ len m = 4 /\ m <> [0; 119; 114; 115])
   \/ (exists v r, e = ErrUnknownVersion v /\ buf = [0; 119; 114; 115] ++ bytes2 v ++ r /\ v < 65536 /\ v <> 1)).
Proof.
  intros buf e Hwf. split.
  - intro H. unfold FromBytes in H.
    destruct (slice_to buf 4) as [m| |] eqn:E1; cbn [bind] in H.
    2:{ exfalso. unfold slice_to in E1. destruct (4 <=? len buf); discriminate. }
    2: discriminate.
    apply slice_to_inv in E1 as (r & -> & L).
    destruct (bytes_equal m Magic) eqn:EM; cbn [negb] in H.
    + right. apply bytes_equal_iff in EM. subst m.
      rewrite slice_from_app in H by (symmetry; exact L). cbn [bind] in H. apply wf_app in Hwf as [_ Hwf].
      destruct (get_be 2 r) as [v| |] eqn:E2; cbn [bind] in H.
      2:{ exfalso. unfold get_be in E2. destruct (N.of_nat 2 <=? len r); discriminate. }
      2: discriminate.
      apply get_be_inv in E2 as (r2 & -> & Hv); [|exact Hwf].
      destruct (N.eqb_spec v 1) as [->|Hne]; cbn [negb] in H.
      * exfalso. rewrite slice_from_app in H by reflexivity. cbn [bind] in H.
        destruct (get_be 4 r2) as [n| |] eqn:E3; cbn [bind] in H; [|unfold get_be in E3; destruct (_ <=? _); discriminate|discriminate].
        destruct (slice_from r2 4) as [b| |] eqn:E4; cbn [bind] in H; [|unfold slice_from in E4; destruct (_ <=? _); discriminate|discriminate].
        apply (read_ops_no_fail _ _ _ _ H).
      * injection H as <-. rewrite be2_bytes2. exists v, r2. auto.
    + left. injection H as <-. split; [reflexivity|]. exists m, r. repeat split; auto.
      intros ->. change (bytes_equal [0; 119; 114; 115] Magic) with true in EM. discriminate.
  - intros [(-> & m & r & -> & L & Hm)|(v & r & -> & -> & Hv & Hne)].
    + unfold FromBytes. rewrite slice_to_app by (symmetry; exact L). cbn [bind].
      destruct (bytes_equal m Magic) eqn:EM; [apply bytes_equal_iff in EM; contradiction|reflexivity].
    + unfold FromBytes. rewrite slice_to_app by reflexivity. cbn [bind].
      change (bytes_equal [0; 119; 114; 115] Magic) with true. cbn [negb].
      rewrite slice_from_app by reflexivity. cbn [bind]. rewrite get2 by exact Hv. cbn [bind].
      destruct (N.eqb_spec v 1); [contradiction|reflexivity].
Qed.

(** ** Names of any length *)
Lemma cut_len : forall b, len (cut_name b) = len b mod 65536.
Proof. intro b. unfold cut_name. rewrite len_firstn. unfold len in *. lia. Qed.
Lemma cut_fits : forall o, names_fit (cut o).
Proof. intro o. split; cbn [cut op_ns op_name]; rewrite cut_len; lia. Qed.
Lemma cut_range : forall o, op_in_range o -> op_in_range (cut o).
Proof.
  intros o H. unfold op_in_range in *. cbn [cut op_index op_type op_dir op_ns op_name]. unfold cut_name.
  repeat split; try apply H; apply wf_firstn, H.
Qed.
Lemma copy_cut : forall E pre tail src pos k, pos = len pre -> len src <= len tail -> (k <= length src)%nat ->
  @copy_at E (pre ++ tail) pos src = Ret ((pre ++ firstn k src) ++ (skipn k src ++ skipn (length src) tail)).
Proof.
  intros E pre tail src pos k Hp Hl Hk. rewrite copy_step by assumption. f_equal. rewrite <- (firstn_skipn k src) at 1. rewrite <- !app_assoc. reflexivity.
Qed.

Ltac lens2 := repeat first [rewrite len_app | rewrite len_skipn | rewrite len2 | rewrite len4 | rewrite len_cons];
  change (len (@nil N)) with 0; unfold bytes2, bytes4; cbn [length]; unfold len in *; lia.
Lemma write_op_any : forall pre tail o, op_type o < 256 -> op_dir o < 256 -> 12 + len (op_ns o) + len (op_name o) <= len tail ->
  exists tail', write_op (pre ++ tail) (len pre) o = Ret ((pre ++ entry_with_reserved (cut o)) ++ tail', len (pre ++ entry_with_reserved (cut o)))
    /\ len tail' = len tail - len (entry_with_reserved (cut o)).
Proof.
  intros pre tail [i ty dr ns nm] Ht Hd HL.
  cbn [op_index op_type op_dir op_ns op_name] in *. unfold write_op. cbn [op_index op_type op_dir op_ns op_name].
  assert (E1 : u8 ty = ty) by (unfold u8; change (2^8) with 256; lia).
  assert (E2 : u8 dr = dr) by (unfold u8; change (2^8) with 256; lia).
  assert (E3 : u16 (len ns) = len (cut_name ns)) by (rewrite cut_len; unfold u16; change (2^16) with 65536; reflexivity).
  assert (E4 : u16 (len nm) = len (cut_name nm)) by (rewrite cut_len; unfold u16; change (2^16) with 65536; reflexivity).
  rewrite E1, E2, E3, E4, be4_bytes4, !be2_bytes2.
  assert (C1 : (length (cut_name ns) <= length ns)%nat) by (unfold cut_name; rewrite firstn_length; lia).
  assert (C2 : (length (cut_name nm) <= length nm)%nat) by (unfold cut_name; rewrite firstn_length; lia).
  assert (F1 : firstn (length (cut_name ns)) ns = cut_name ns) by (unfold cut_name at 1; rewrite firstn_length; unfold cut_name; rewrite <- firstn_firstn, firstn_all; reflexivity).
  assert (F2 : firstn (length (cut_name nm)) nm = cut_name nm) by (unfold cut_name at 1; rewrite firstn_length; unfold cut_name; rewrite <- firstn_firstn, firstn_all; reflexivity).
  rewrite put_step by lens2. cbn [bind].
  rewrite put_step by lens2. cbn [bind].
  rewrite put_step by lens2. cbn [bind].
  rewrite adv_ok by lens2. cbn [bind].
  rewrite put_step by lens2. cbn [bind].
  rewrite adv_ok by lens2. cbn [bind].
  rewrite (copy_cut _ _ _ ns _ (length (cut_name ns))) by lens2. rewrite F1. cbn [bind].
  rewrite adv_ok by lens2. cbn [bind].
  rewrite put_step by lens2. cbn [bind].
  rewrite adv_ok by lens2. cbn [bind].
  rewrite (copy_cut _ _ _ nm _ (length (cut_name nm))) by lens2. rewrite F2. cbn [bind].
  rewrite adv_ok by lens2. cbn [bind].
  rewrite put_step by lens2. cbn [bind].
  rewrite adv_ok by lens2. cbn [bind].
  unfold entry_with_reserved, entry_bytes. cbn [cut op_index op_type op_dir op_ns op_name].
  eexists. split.
  - f_equal. f_equal.
    + change [ty; dr] with ([ty] ++ [dr]). rewrite <- !app_assoc. reflexivity.
    + lens2.
  - lens2.
Qed.

Lemma cut_entry_le : forall o, len (entry_with_reserved (cut o)) <= 12 + len (op_ns o) + len (op_name o).
Proof. intro o. rewrite entry_len. cbn [cut op_ns op_name]. rewrite !cut_len. pose proof (N.mod_le (len (op_ns o)) 65536). pose proof (N.mod_le (len (op_name o)) 65536). lia. Qed.

Lemma write_ops_any : forall t pre tail, Forall (fun o => op_type o < 256 /\ op_dir o < 256) t -> table_size t - 10 <= len tail ->
  exists junk, write_ops (pre ++ tail) (len pre) t = Ret (pre ++ concat (map entry_with_reserved (map cut t)) ++ junk).
Proof.
  induction t as [|o t IH]; intros pre tail HF HL; cbn [write_ops map concat].
  - exists tail. reflexivity.
  - apply Forall_cons_iff in HF as [(A & B) HF]. cbn [table_size fold_right] in HL. fold (table_size t) in HL. pose proof (table_size_len t) as TL.
    destruct (write_op_any pre tail o A B) as (tail' & W & L); [lia|]. rewrite W. cbn [bind]. pose proof (cut_entry_le o) as CE.
    destruct (IH (pre ++ entry_with_reserved (cut o)) tail' HF) as (junk & J); [lia|]. exists junk. rewrite J, <- !app_assoc. reflexivity.
Qed.

Theorem ToBytes_any : forall t, Forall (fun o => op_type o < 256 /\ op_dir o < 256) t -> table_size t < 2^32 ->
  exists junk, ToBytes t = Ret (preamble (len t) ++ concat (map entry_with_reserved (map cut t)) ++ junk).
Proof.
  intros t HF HS. unfold ToBytes. rewrite ops_size_spec by exact HS.
  set (buf := repeat 0 (N.to_nat (table_size t))).
  assert (LB : len buf = table_size t) by (unfold buf; rewrite len_repeat; lia).
  pose proof (table_size_len t) as TL. pose proof (len_le_size t) as LS.
  assert (EL : u32 (len t) = len t) by (unfold u32; change (2^32) with 4294967296 in *; lia).
  rewrite EL, be4_bytes4, be2_bytes2. clearbody buf.
  pose proof (copy_step no_err [] buf Magic 0 eq_refl) as P. cbn [app] in P. unfold Magic in P at 1.
  rewrite P by (rewrite LB; change (len [0; 119; 114; 115]) with 4; lia). cbn [bind].
  assert (L4 : len Magic = 4) by reflexivity.
  rewrite adv_ok by (rewrite len_app, len_skipn, L4; change (length Magic) with 4%nat; lia). cbn [bind].
  change (0 + 4) with 4.
  rewrite put_step; [|reflexivity|rewrite len_skipn, len2; change (length Magic) with 4%nat; lia]. cbn [bind].
  rewrite adv_ok by (rewrite !len_app, !len_skipn, L4, len2; change (length Magic) with 4%nat; change (length (bytes2 1)) with 2%nat; lia). cbn [bind].
  rewrite put_step; [|reflexivity|rewrite !len_skipn, len4; change (length Magic) with 4%nat; change (length (bytes2 1)) with 2%nat; lia]. cbn [bind].
  rewrite adv_ok by (rewrite !len_app, !len_skipn, L4, len2, len4; change (length Magic) with 4%nat; change (length (bytes2 1)) with 2%nat; change (length (bytes4 (len t))) with 4%nat; lia). cbn [bind].
  change ((Magic ++ bytes2 1) ++ bytes4 (len t)) with (preamble (len t)).
  change (4 + 2 + 4) with (len (preamble (len t))).
  apply write_ops_any; [exact HF|].
  rewrite !len_skipn. change (length Magic) with 4%nat. change (length (bytes2 1)) with 2%nat.
  change (length (bytes4 (len t))) with 4%nat. lia.
Qed.

Theorem long_names_proof : forall t, Forall op_in_range t -> table_size t < 2^32 ->
  exists bs, ToBytes t = Ret bs /\ FromBytes bs = Ret (map cut t).
Proof.
  intros t HR HS. destruct (ToBytes_any t) as (junk & J); [|exact HS|].
  { eapply Forall_impl; [|exact HR]. intros o Ho. unfold op_in_range in Ho. tauto. }
  eexists. split; [exact J|]. assert (X := FromBytes_with_reserved (map (fun o => (cut o, [])) t) junk). unfold table_bytes_with in X.
  rewrite !map_map in X. cbn [fst] in X. pose proof (len_le_size t) as LS.
  assert (Lm : len (map (fun o => (cut o, @nil N)) t) = len t) by (unfold len; rewrite map_length; reflexivity). rewrite Lm in X.
  rewrite <- app_assoc in X. rewrite map_map. apply X.
  - apply Forall_map. eapply Forall_impl; [|exact HR]. intros o Ho. apply cut_range, Ho.
  - apply Forall_map. apply Forall_forall. intros o _. apply cut_fits.
  - apply Forall_map. apply Forall_forall. intros o _. reflexivity.
  - lia.
Qed.
