(** Proofs about the Rust operation list against the Go one. *)
From Coq Require Import List NArith ZArith Lia Bool ZifyBool ZifyNat ZifyN.
From Verif Require Import Base BaseLemmas FramesModel FramesSpec FramesProofs OperationsModel OperationsSpec OperationsProofs CustomModel CustomSpec CustomProofs
  RustFramesModel RustFramesProofs RustOpsModel RustOpsSpec.
Import ListNotations.
Open Scope N_scope.
Ltac Zify.zify_post_hook ::= Z.div_mod_to_equations.

(** ** The parts of an entry *)
Lemma num_get : forall E w (buf : bytes), num (E := E) (N.of_nat w) buf = (do n <- get_be w buf ; do r <- slice_from buf (N.of_nat w) ; Ret (n, r)).
Proof.
  intros E w buf. unfold num, split_to, get_be, slice_from. destruct (N.leb_spec (N.of_nat w) (len buf)) as [L|L]; [|reflexivity].
  cbn [bind]. rewrite Nat2N.id, from_split by exact L. reflexivity.
Qed.

Lemma num2_app : forall E v r, v < 65536 -> num (E := E) 2 (bytes2 v ++ r) = Ret (v, r).
Proof. intros. change 2 with (N.of_nat 2). rewrite num_get, get2 by assumption. cbn [bind]. rewrite slice_from_app by reflexivity. reflexivity. Qed.
Lemma num4_app : forall E v r, v < 2^32 -> num (E := E) 4 (bytes4 v ++ r) = Ret (v, r).
Proof. intros. change 4 with (N.of_nat 4). rewrite num_get, get4 by assumption. cbn [bind]. rewrite slice_from_app by reflexivity. reflexivity. Qed.

Lemma num2_inv : forall E buf v r, wf buf -> num (E := E) 2 buf = Ret (v, r) -> buf = bytes2 v ++ r /\ v < 65536.
Proof.
  intros E buf v r W H. change 2 with (N.of_nat 2) in H. rewrite num_get in H. apply bind_ret in H as (n & H1 & H).
  apply get_be_inv in H1 as (a & Q & Hn); [|exact W]. rewrite be2_bytes2 in Q. subst buf. rewrite slice_from_app in H by reflexivity. cbn [bind] in H.
  assert (n = v) by congruence. assert (a = r) by congruence. subst. split; [reflexivity|exact Hn].
Qed.
Lemma num4_inv : forall E buf v r, wf buf -> num (E := E) 4 buf = Ret (v, r) -> buf = bytes4 v ++ r /\ v < 2^32.
Proof.
  intros E buf v r W H. change 4 with (N.of_nat 4) in H. rewrite num_get in H. apply bind_ret in H as (n & H1 & H).
  apply get_be_inv in H1 as (a & Q & Hn); [|exact W]. rewrite be4_bytes4 in Q. subst buf. rewrite slice_from_app in H by reflexivity. cbn [bind] in H.
  assert (n = v) by congruence. assert (a = r) by congruence. subst. split; [reflexivity|exact Hn].
Qed.

Lemma text_app : forall b r, utf8 b -> text (len b) (b ++ r) = Ret (b, r).
Proof.
  intros b r U. unfold text. rewrite split_to_slices, slice_to_app, slice_from_app by reflexivity. cbn [bind]. apply valid_iff in U. rewrite U. reflexivity.
Qed.
Lemma text_inv : forall n buf b r, text n buf = Ret (b, r) -> buf = b ++ r /\ len b = n /\ utf8 b.
Proof.
  intros n buf b r H. unfold text in H. rewrite split_to_slices in H. apply bind_ret in H as ([b' r'] & H1 & H).
  apply bind_ret in H1 as (x & A & H1). apply bind_ret in H1 as (y & B & H1). assert (x = b') by congruence. assert (y = r') by congruence. subst x y.
  destruct (utf8_valid b') eqn:V; [|discriminate]. assert (b' = b) by congruence. assert (r' = r) by congruence. subst b' r'. apply valid_iff in V.
  apply slice_to_inv in A as (tl & E & L). rewrite E, slice_from_app in B by (symmetry; exact L). assert (tl = r) by congruence. subst tl. auto.
Qed.

Lemma kind_from_of : forall E ty, 1 <= ty <= 4 -> kind_from (E := E) ty = Ret (kind_of ty).
Proof. intros E ty H. assert (C : ty = 1 \/ ty = 2 \/ ty = 3 \/ ty = 4) by lia. destruct C as [->|[->|[->| ->]]]; reflexivity. Qed.
Lemma kind_from_inv : forall E ty k, kind_from (E := E) ty = Ret k -> 1 <= ty <= 4 /\ k = kind_of ty.
Proof.
  intros E ty k H. assert (C : ty = 1 \/ ty = 2 \/ ty = 3 \/ ty = 4).
  { destruct ty as [|[[|[]|]|[[]|[]|]|]]; cbn in H; try discriminate; auto. }
  rewrite kind_from_of in H by lia. split; [lia|congruence].
Qed.

Lemma rread_op_spec : forall o r rest, op_index o < 2^32 -> names_fit o -> rust_accepts o -> r < 65536 ->
  rread_op (entry_bytes o ++ bytes2 r ++ rest) = Ret (rust_op o, op_dir o, rest).
Proof.
  intros [i ty dr ns nm] r rest Hi [Hn1 Hn2] (K & U1 & U2) Hr. cbn [op_index op_ns op_name op_type] in *.
  unfold entry_bytes, rread_op. cbn [op_index op_type op_dir op_ns op_name]. rewrite <- !app_assoc. cbn [app one bind].
  rewrite kind_from_of by exact K. cbn [bind one]. rewrite num4_app by exact Hi. cbn [bind]. rewrite num2_app by lia. cbn [bind]. rewrite text_app by exact U1. cbn [bind].
  rewrite num2_app by lia. cbn [bind]. rewrite text_app by exact U2. cbn [bind]. rewrite num2_app by exact Hr. reflexivity.
Qed.

Lemma rread_op_inv : forall buf ro dir rest, wf buf -> rread_op buf = Ret (ro, dir, rest) ->
  exists o r, op_in_range o /\ names_fit o /\ rust_accepts o /\ r < 65536 /\ buf = entry_bytes o ++ bytes2 r ++ rest /\ ro = rust_op o /\ dir = op_dir o /\ wf rest.
Proof.
  intros buf ro dir rest W H. unfold rread_op in H.
  apply bind_ret in H as ([k b1] & H0 & H). destruct buf as [|x0 buf]; [discriminate|]. cbn [one] in H0. assert (x0 = k) by congruence. assert (buf = b1) by congruence. subst x0 b1.
  apply bind_ret in H as (kd & H1 & H). apply kind_from_inv in H1 as [Hk ->].
  apply bind_ret in H as ([dr b2] & H0' & H). destruct buf as [|x1 buf]; [discriminate|]. cbn [one] in H0'. assert (x1 = dr) by congruence. assert (buf = b2) by congruence. subst x1 b2.
  apply wf_cons in W as [W0 W]. apply wf_cons in W as [W1 W].
  apply bind_ret in H as ([i b3] & H1 & H). apply num4_inv in H1 as [-> Hi]; [|exact W]. apply wf_app in W as [_ W].
  apply bind_ret in H as ([nl b4] & H1 & H). apply num2_inv in H1 as [-> Hnl]; [|exact W]. apply wf_app in W as [_ W].
  apply bind_ret in H as ([ns b5] & H1 & H). apply text_inv in H1 as (-> & Lns & U1). apply wf_app in W as [Wns W].
  apply bind_ret in H as ([ol b6] & H1 & H). apply num2_inv in H1 as [-> Hol]; [|exact W]. apply wf_app in W as [_ W].
  apply bind_ret in H as ([nm b7] & H1 & H). apply text_inv in H1 as (-> & Lnm & U2). apply wf_app in W as [Wnm W].
  apply bind_ret in H as ([r b8] & H1 & H). apply num2_inv in H1 as [-> Hr]; [|exact W]. apply wf_app in W as [_ W].
  assert (R : ro = mkRop i (kind_of k) ns nm) by congruence. assert (D : dir = dr) by congruence. assert (b8 = rest) by congruence. subst ro dir b8. clear H.
  exists (mkOp i k dr ns nm), r. unfold op_in_range, names_fit, rust_accepts, entry_bytes, rust_op. cbn [op_index op_type op_dir op_ns op_name].
  rewrite Lns, Lnm. repeat split; auto; try lia. rewrite <- !app_assoc. reflexivity.
Qed.

(** ** The list *)
Lemma rust_list_cons_acc : forall o t im ex,
  (if op_dir o =? 1 then (im, ex ++ [rust_op o]) else (im ++ [rust_op o], ex)) = (im ++ ro_imports (rust_list [o]), ex ++ ro_exports (rust_list [o]))
  /\ ro_imports (rust_list (o :: t)) = ro_imports (rust_list [o]) ++ ro_imports (rust_list t)
  /\ ro_exports (rust_list (o :: t)) = ro_exports (rust_list [o]) ++ ro_exports (rust_list t).
Proof.
  intros o t im ex. unfold rust_list. cbn [ro_imports ro_exports filter]. destruct (op_dir o =? 1); cbn [negb filter map app]; rewrite ?app_nil_r; auto.
Qed.

Lemma rread_ops_inv : forall fuel n buf im ex l, wf buf -> rread_ops fuel n buf im ex = Ret l ->
  exists t, rust_holds t buf /\ len t = n /\ l = mkRopList (im ++ ro_imports (rust_list t)) (ex ++ ro_exports (rust_list t)).
Proof.
  induction fuel as [|fuel IH]; intros n buf im ex l W H; cbn [rread_ops] in H.
  - destruct (N.eqb_spec n 0); [|discriminate]. exists []. split; [constructor|]. split; [subst; reflexivity|]. unfold rust_list. cbn. rewrite !app_nil_r. congruence.
  - destruct (N.eqb_spec n 0). { exists []. split; [constructor|]. split; [subst; reflexivity|]. unfold rust_list. cbn. rewrite !app_nil_r. congruence. }
    apply bind_ret in H as ([[ro dir] b] & H1 & H). apply rread_op_inv in H1 as (o & r & A & B & C & D & -> & -> & -> & F); [|exact W].
    assert (X : exists im' ex', (if op_dir o =? 1 then (im, ex ++ [rust_op o]) else (im ++ [rust_op o], ex)) = (im', ex') /\ rread_ops fuel (n - 1) b im' ex' = Ret l).
    { destruct (op_dir o =? 1); eauto. }
    destruct X as (im' & ex' & X & Y). destruct (IH _ _ _ _ _ F Y) as (t & Ht & Lt & Q). exists (o :: t).
    split; [constructor; assumption|]. split; [rewrite len_cons; lia|]. destruct (rust_list_cons_acc o t im ex) as (P1 & P2 & P3).
    rewrite P1 in X. assert (im' = im ++ ro_imports (rust_list [o])) by congruence. assert (ex' = ex ++ ro_exports (rust_list [o])) by congruence. subst im' ex'.
    rewrite Q, P2, P3, !app_assoc. reflexivity.
Qed.

Lemma rread_ops_holds : forall t buf, rust_holds t buf -> forall fuel im ex, (length buf <= fuel)%nat ->
  rread_ops fuel (len t) buf im ex = Ret (mkRopList (im ++ ro_imports (rust_list t)) (ex ++ ro_exports (rust_list t))).
Proof.
  intros t buf H. induction H as [rest|o t r rest A B C D _ IH]; intros fuel im ex L.
  - destruct fuel; cbn [rread_ops]; unfold rust_list; cbn; rewrite !app_nil_r; reflexivity.
  - assert (0 < length (entry_bytes o))%nat by (unfold entry_bytes; cbn; lia). rewrite !app_length in L. destruct fuel as [|fuel]; [lia|].
    cbn [rread_ops]. rewrite len_cons. destruct (N.eqb_spec (1 + len t) 0); [lia|]. rewrite rread_op_spec; [|apply A|exact B|exact C|exact D]. cbn [bind].
    replace (1 + len t - 1) with (len t) by lia. destruct (rust_list_cons_acc o t im ex) as (P1 & P2 & P3). rewrite P2, P3, !app_assoc.
    destruct (op_dir o =? 1); assert (Q1 := f_equal fst P1); assert (Q2 := f_equal snd P1); cbn [fst snd] in Q1, Q2; rewrite <- Q1, <- Q2, IH by lia; reflexivity.
Qed.

Lemma rops_decode_preamble : forall n body, n < 2^32 -> rops_decode (preamble n ++ body) = rread_ops (length body) n body [] [].
Proof.
  intros n body L. unfold rops_decode, preamble. rewrite <- !app_assoc. rewrite split_to_slices, slice_to_app, slice_from_app by reflexivity. cbn [bind].
  change (negb (bytes_equal [0; 119; 114; 115] WASMRS_MAGIC)) with false. cbv iota. rewrite num2_app by lia. cbn [bind]. change (1 =? 1) with true. cbv iota.
  rewrite num4_app by exact L. reflexivity.
Qed.

Lemma rops_decode_iff : forall buf l, wf buf ->
  (rops_decode buf = Ret l <-> exists t body, len t < 2^32 /\ buf = preamble (len t) ++ body /\ rust_holds t body /\ l = rust_list t).
Proof.
  intros buf l W. split.
  - intros H. unfold rops_decode in H. apply bind_ret in H as ([m b1] & H1 & H). rewrite split_to_slices in H1.
    apply bind_ret in H1 as (x & A & H1). apply bind_ret in H1 as (y & B & H1). assert (x = m) by congruence. assert (y = b1) by congruence. subst x y. clear H1.
    apply slice_to_inv in A as (tl & -> & Lm). rewrite slice_from_app in B by (symmetry; exact Lm). assert (tl = b1) by congruence. subst tl. clear B.
    destruct (bytes_equal m WASMRS_MAGIC) eqn:M; [|discriminate]. apply bytes_equal_iff in M. subst m. cbn [negb] in H. cbv iota in H. apply wf_app in W as [_ W].
    apply bind_ret in H as ([v b2] & H1 & H). apply num2_inv in H1 as [-> _]; [|exact W]. apply wf_app in W as [_ W].
    destruct (N.eqb_spec v 1) as [->|]; [|discriminate]. apply bind_ret in H as ([n b3] & H1 & H). apply num4_inv in H1 as [-> Hn]; [|exact W]. apply wf_app in W as [_ W].
    destruct (rread_ops_inv _ _ _ _ _ _ W H) as (t & Ht & Lt & Q). exists t, b3. subst n. split; [exact Hn|]. split; [unfold preamble; rewrite <- !app_assoc; reflexivity|]. split; [exact Ht|].
    rewrite Q. destruct (rust_list t); reflexivity.
  - intros (t & body & Lt & -> & Ht & ->). rewrite rops_decode_preamble by exact Lt. rewrite (rread_ops_holds t body Ht) by lia. cbn [app]. destruct (rust_list t); reflexivity.
Qed.

(** ** Rust writes Go's layout *)
Lemma encode_op_entry : forall o dir, rop_in_range o -> encode_op o dir = entry_bytes (go_op dir o) ++ bytes2 0.
Proof.
  intros o dir (_ & _ & _ & L1 & L2). unfold encode_op, entry_bytes, go_op. cbn [op_type op_dir op_index op_ns op_name].
  rewrite be4_bytes4, !be2_bytes2. unfold u16. rewrite !N.mod_small by lia. rewrite <- !app_assoc. reflexivity.
Qed.

Lemma concat_map_ext : forall A (f g : A -> bytes) l, Forall (fun x => f x = g x) l -> concat (map f l) = concat (map g l).
Proof. induction 1 as [|x l E _ IH]; [reflexivity|]. cbn [map concat]. rewrite E, IH. reflexivity. Qed.

Lemma rops_encode_table : forall l, all_ops rop_in_range l -> len (ro_imports l) + len (ro_exports l) < 2^32 -> rops_encode l = table_bytes (go_table l).
Proof.
  intros l [HE HI] L. unfold rops_encode, table_bytes, preamble, go_table. rewrite map_app, concat_app, !map_map, len_app. unfold len at 3 4. rewrite !map_length. fold (len (ro_exports l)). fold (len (ro_imports l)).
  rewrite be2_bytes2, be4_bytes4. unfold u32. rewrite N.mod_small by exact L. rewrite (N.add_comm (len (ro_exports l))), <- !app_assoc.
  rewrite (concat_map_ext _ (fun o => encode_op o 1) (fun x => entry_bytes (go_op 1 x) ++ bytes2 0)) by (eapply Forall_impl; [|exact HE]; intros o H; exact (encode_op_entry o 1 H)).
  rewrite (concat_map_ext _ (fun o => encode_op o 2) (fun x => entry_bytes (go_op 2 x) ++ bytes2 0)) by (eapply Forall_impl; [|exact HI]; intros o H; exact (encode_op_entry o 2 H)).
  reflexivity.
Qed.

Lemma go_op_range : forall d o, d < 256 -> rop_in_range o -> op_in_range (go_op d o) /\ names_fit (go_op d o).
Proof.
  intros d o D (A & B & C & L1 & L2). unfold op_in_range, names_fit, go_op. cbn [op_type op_dir op_index op_ns op_name]. repeat split; auto. destruct (ro_kind o); reflexivity.
Qed.

Lemma go_table_all : forall (P : operation -> Prop) l, (forall d o, d = 1 \/ d = 2 -> In o (ro_exports l) \/ In o (ro_imports l) -> P (go_op d o)) -> Forall P (go_table l).
Proof. intros P l H. unfold go_table. apply Forall_app. split; apply Forall_forall; intros x I; apply in_map_iff in I as (o & <- & I); apply H; auto. Qed.

Lemma all_in : forall P l o, all_ops P l -> In o (ro_exports l) \/ In o (ro_imports l) -> P o.
Proof. intros P l o [A B] [I|I]; [exact (proj1 (Forall_forall _ _) A o I)|exact (proj1 (Forall_forall _ _) B o I)]. Qed.

Lemma rust_holds_table : forall t, Forall op_in_range t -> Forall names_fit t -> Forall rust_accepts t -> rust_holds t (concat (map (fun o => entry_bytes o ++ bytes2 0) t)).
Proof.
  induction t as [|o t IH]; intros A B C; [constructor|]. inversion_clear A. inversion_clear B. inversion_clear C. cbn [map concat]. rewrite <- app_assoc.
  constructor; try assumption; [lia|]. apply IH; assumption.
Qed.

Lemma rust_go_round : forall l, rust_list (go_table l) = l.
Proof.
  intros [im ex]. unfold rust_list, go_table. cbn [ro_imports ro_exports]. rewrite !filter_app, !map_app.
  assert (K : forall k, kind_of (kind_into k) = k) by (destruct k; reflexivity).
  assert (R : forall d o, rust_op (go_op d o) = o) by (intros d []; unfold rust_op, go_op; cbn; rewrite K; reflexivity).
  assert (T : forall f d os, (forall o, f (go_op d o) = true) -> map rust_op (filter f (map (go_op d) os)) = os).
  { intros f d os H. induction os as [|o os IH]; [reflexivity|]. cbn [map filter]. rewrite H. cbn [map]. rewrite R, IH. reflexivity. }
  assert (F : forall f d os, (forall o, f (go_op d o) = false) -> map rust_op (filter f (map (go_op d) os)) = []).
  { intros f d os H. induction os as [|o os IH]; [reflexivity|]. cbn [map filter]. rewrite H. exact IH. }
  rewrite (F (fun o => negb (op_dir o =? 1)) 1), (T (fun o => negb (op_dir o =? 1)) 2), (T (fun o => op_dir o =? 1) 1), (F (fun o => op_dir o =? 1) 2) by reflexivity.
  rewrite app_nil_r. reflexivity.
Qed.

(** ** Errors *)
Lemma num_nofail : forall E w b (e : E), num w b <> Fail e.
Proof. intros E w b e. unfold num, split_to, from_bytes_n. destruct (w <=? len b); [|discriminate]. cbn [bind]. destruct (_ =? w); discriminate. Qed.
Lemma get_be_nofail : forall E w b (e : E), get_be w b <> Fail e.
Proof. intros E w b e. unfold get_be. destruct (_ <=? _); discriminate. Qed.
Lemma rread_ops_fail : forall fuel n buf im ex e, rread_ops fuel n buf im ex = Fail e -> e = RUtf8String.
Proof.
  assert (T : forall n b e, text n b = Fail e -> e = RUtf8String).
  { intros n b e H. unfold text, split_to in H. destruct (n <=? len b); [|discriminate]. cbn [bind] in H. destruct (utf8_valid _); congruence. }
  assert (U : forall E w b (e : E), num w b <> Fail e).
  { intros E w b e. unfold num, split_to, from_bytes_n. destruct (w <=? len b); [|discriminate]. cbn [bind]. destruct (_ =? w); discriminate. }
  assert (O : forall b e, rread_op b = Fail e -> e = RUtf8String).
  { intros b e H. unfold rread_op in H. destruct (one b) as [[k b1]| |] eqn:E1; cbn [bind] in H; [| |discriminate]. 2: { destruct b; discriminate. }
    destruct (kind_from k) as [kd|x|] eqn:E2; cbn [bind] in H; [| |discriminate]. 2: { destruct k as [|[[|[]|]|[[]|[]|]|]]; discriminate. }
    destruct (one b1) as [[d b2]| |] eqn:E3; cbn [bind] in H; [| |discriminate]. 2: { destruct b1; discriminate. }
    destruct (num 4 b2) as [[i b3]|x|] eqn:E4; cbn [bind] in H; [|exfalso; exact (U _ _ _ _ E4)|discriminate].
    destruct (num 2 b3) as [[nl b4]|x|] eqn:E5; cbn [bind] in H; [|exfalso; exact (U _ _ _ _ E5)|discriminate].
    destruct (text nl b4) as [[ns b5]|x|] eqn:E6; cbn [bind] in H; [|assert (x = e) by congruence; subst; exact (T _ _ _ E6)|discriminate].
    destruct (num 2 b5) as [[ol b6]|x|] eqn:E7; cbn [bind] in H; [|exfalso; exact (U _ _ _ _ E7)|discriminate].
    destruct (text ol b6) as [[nm b7]|x|] eqn:E8; cbn [bind] in H; [|assert (x = e) by congruence; subst; exact (T _ _ _ E8)|discriminate].
    destruct (num 2 b7) as [[r b8]|x|] eqn:E9; cbn [bind] in H; [discriminate|exfalso; exact (U _ _ _ _ E9)|discriminate]. }
  induction fuel as [|fuel IH]; intros n buf im ex e H; cbn [rread_ops] in H; destruct (n =? 0); try discriminate.
  destruct (rread_op buf) as [[[o d] b]|x|] eqn:E; cbn [bind] in H; [|assert (x = e) by congruence; subst; exact (O _ _ E)|discriminate].
  destruct (d =? 1); eapply IH; exact H.
Qed.

Lemma magic_same : forall buf, (rops_decode buf = Fail RMagic <-> FromBytes buf = Fail OperationsModel.ErrInvalidMagicNumber).
Proof.
  intros buf. unfold rops_decode, FromBytes. rewrite split_to_slices. destruct (slice_to buf 4) as [m|e|] eqn:A.
  2: { unfold slice_to in A. destruct (4 <=? len buf); discriminate. }
  2: { unfold slice_to in *. destruct (4 <=? len buf); [discriminate|]. split; discriminate. }
  unfold slice_to in *. destruct (4 <=? len buf) eqn:L; [|discriminate]. cbn [bind]. assert (M : firstn (N.to_nat 4) buf = m) by congruence. rewrite M. clear A.
  unfold slice_from. rewrite L. cbn [bind]. change WASMRS_MAGIC with Magic. destruct (bytes_equal m Magic); cbn [negb]; [|split; reflexivity]. split; intros H; exfalso.
  - destruct (num 2 _) as [[v b]|x|] eqn:E; cbn [bind] in H; [| |discriminate].
    + destruct (v =? 1); [|discriminate]. destruct (num 4 b) as [[n b3]|x|] eqn:E4; cbn [bind] in H; [| |discriminate].
      * apply rread_ops_fail in H. discriminate.
      * unfold num, split_to, from_bytes_n in E4. destruct (4 <=? len b); [|discriminate]. cbn [bind] in E4. destruct (_ =? 4); discriminate.
    + unfold num, split_to, from_bytes_n in E. destruct (2 <=? len _); [|discriminate]. cbn [bind] in E. destruct (_ =? 2); discriminate.
  - destruct (get_be 2 _) as [v|x|] eqn:E; cbn [bind] in H; [|exact (get_be_nofail _ _ _ _ E)|discriminate].
    destruct (negb (v =? 1)); [discriminate|]. destruct (2 <=? _); [|discriminate]. cbn [bind] in H.
    destruct (get_be 4 _) as [n|x|] eqn:E4; cbn [bind] in H; [|exact (get_be_nofail _ _ _ _ E4)|discriminate].
    destruct (4 <=? len (skipn (N.to_nat 2) (skipn (N.to_nat 4) buf))); [|discriminate]. cbn [bind] in H. exact (read_ops_no_fail _ _ _ _ H).
Qed.

Lemma version_same : forall buf, (rops_decode buf = Fail RVersion <-> exists v, FromBytes buf = Fail (ErrUnknownVersion v)).
Proof.
  intros buf. unfold rops_decode, FromBytes. rewrite split_to_slices. unfold slice_to at 1 2. destruct (4 <=? len buf) eqn:L; [|split; [discriminate|intros (v & H); discriminate]].
  cbn [bind]. unfold slice_from at 1 2. rewrite L. cbn [bind]. change WASMRS_MAGIC with Magic. destruct (bytes_equal _ Magic); cbn [negb]; [|split; [discriminate|intros (v & H); discriminate]].
  set (b := skipn (N.to_nat 4) buf). change (num (E := rops_error) 2 b) with (num (E := rops_error) (N.of_nat 2) b). rewrite num_get. unfold get_be, slice_from. change (N.of_nat 2) with 2.
  destruct (2 <=? len b) eqn:L2; [|split; [discriminate|intros (v & H); discriminate]]. cbn [bind].
  destruct (unbe (firstn 2 b) =? 1); cbn [negb]; [|split; [eauto|reflexivity]]. split; intros H; exfalso.
  - destruct (num 4 _) as [[n b3]|x|] eqn:E4; cbn [bind] in H; [| |discriminate].
    + apply rread_ops_fail in H. discriminate.
    + exact (num_nofail _ _ _ _ E4).
  - destruct H as (v & H). change (N.of_nat 4) with 4 in H. destruct (4 <=? len (skipn (N.to_nat 2) b)); [|discriminate]. cbn [bind] in H. exact (read_ops_no_fail _ _ _ _ H).
Qed.

(** ** Lookup *)
Lemma get_op_spec : forall l ns nm i, get_op l ns nm = Some i <->
  exists before o after, l = before ++ o :: after /\ ro_ns o = ns /\ ro_name o = nm /\ ro_index o = i /\ Forall (fun x => ~ (ro_ns x = ns /\ ro_name x = nm)) before.
Proof.
  intros l ns nm i. unfold get_op. induction l as [|x l IH]; cbn [find].
  - split; [discriminate|]. intros (b & o & a & E & _). destruct b; discriminate.
  - destruct (bytes_equal (ro_ns x) ns && bytes_equal (ro_name x) nm) eqn:Q.
    + apply andb_true_iff in Q as [Q1 Q2]. apply bytes_equal_iff in Q1. apply bytes_equal_iff in Q2. split.
      * intros H. exists [], x, l. repeat split; auto; congruence.
      * intros (b & o & a & E & A & B & C & F). destruct b as [|y b]; cbn [app] in E.
        -- assert (x = o) by congruence. subst. reflexivity.
        -- assert (x = y) by congruence. subst y. inversion_clear F. exfalso. auto.
    + assert (NQ : ~ (ro_ns x = ns /\ ro_name x = nm)).
      { intros [A B]. apply bytes_equal_iff in A. apply bytes_equal_iff in B. rewrite A, B in Q. discriminate. }
      rewrite IH. split.
      * intros (b & o & a & E & A & B & C & F). exists (x :: b), o, a. rewrite E. repeat split; auto.
      * intros (b & o & a & E & A & B & C & F). destruct b as [|y b]; cbn [app] in E.
        -- assert (x = o) by congruence. subst o. exfalso. auto.
        -- inversion_clear F. exists b, o, a. repeat split; auto. congruence.
Qed.

(** ** Which Go tables Rust reads *)
Lemma entry_inj : forall o o' r x y, op_in_range o -> op_in_range o' -> names_fit o -> names_fit o' -> r < 65536 ->
  entry_bytes o ++ bytes2 0 ++ x = entry_bytes o' ++ bytes2 r ++ y -> o = o' /\ x = y.
Proof.
  intros o o' r x y R R' F F' Hr E.
  assert (A := read_op_spec o (bytes2 0 ++ x) (proj1 R) F). rewrite get2 in A by lia. cbn [bind] in A. change (u16 (2 + 0)) with 2 in A. rewrite slice_from_app in A by reflexivity. cbn [bind] in A.
  assert (B := read_op_spec o' (bytes2 r ++ y) (proj1 R') F'). rewrite get2 in B by exact Hr. cbn [bind] in B. rewrite <- E, A in B.
  destruct (slice_from (bytes2 r ++ y) (u16 (2 + r))) as [b|e|]; [|discriminate|discriminate]. cbn [bind] in B. assert (O : o = o') by congruence. split; [exact O|].
  subst o'. apply app_inv_head in E. assert (X : skipn 2 (bytes2 0 ++ x) = skipn 2 (bytes2 r ++ y)) by congruence. exact X.
Qed.

Lemma rust_holds_cons_inv : forall o t b, rust_holds (o :: t) b -> exists r rest, b = entry_bytes o ++ bytes2 r ++ rest /\ op_in_range o /\ names_fit o /\ r < 65536 /\ rust_holds t rest.
Proof. intros o t b H. inversion H; subst. eauto 8. Qed.

Lemma rust_holds_unique : forall t t', Forall op_in_range t -> Forall names_fit t -> len t' = len t ->
  rust_holds t' (concat (map (fun o => entry_bytes o ++ bytes2 0) t)) -> t' = t.
Proof.
  induction t as [|o t IH]; intros t' A B L H.
  - destruct t'; [reflexivity|]. rewrite len_cons in L. change (len (@nil operation)) with 0 in L. lia.
  - destruct t' as [|o' t']; [rewrite len_cons in L; change (len (@nil operation)) with 0 in L; lia|]. rewrite !len_cons in L.
    inversion_clear A as [|? ? A1 A2]. inversion_clear B as [|? ? B1 B2]. cbn [map concat] in H. rewrite <- app_assoc in H.
    apply rust_holds_cons_inv in H as (r & rest & E & R2 & F2 & D2 & H2). apply entry_inj in E as [<- <-]; [|assumption..]. f_equal. apply IH; [assumption|assumption|lia|assumption].
Qed.

Lemma rust_holds_accepts : forall t b, rust_holds t b -> Forall rust_accepts t.
Proof. induction 1; constructor; assumption. Qed.

Lemma table_read_iff : forall t l, Forall op_in_range t -> Forall names_fit t -> len t < 2^32 ->
  (rops_decode (table_bytes t) = Ret l <-> Forall rust_accepts t /\ l = rust_list t).
Proof.
  intros t l R F L. assert (W : wf (table_bytes t)).
  { unfold table_bytes, preamble. apply wf_app. split.
    - apply wf_app. split; [repeat (apply wf_cons; split; [unfold is_byte; lia|]); constructor|]. apply wf_app. split; [apply bytes2_wf|apply bytes4_wf].
    - clear L. induction R as [|o t Ro _ IH]; [constructor|]. inversion_clear F. cbn [map concat]. apply wf_app. split; [|apply IH; assumption].
      destruct Ro as (Hi & Ht & Hd & W1 & W2). unfold entry_bytes. repeat (apply wf_app; split); try apply bytes2_wf; try apply bytes4_wf; try assumption.
      apply wf_cons; split; [exact Ht|]. apply wf_cons; split; [exact Hd|constructor]. }
  rewrite (rops_decode_iff _ l W). split.
  - intros (t' & body & Lt & E & H & ->). unfold table_bytes, preamble in E. rewrite <- !app_assoc in E. apply app_inv_head in E. apply app_inv_head in E.
    assert (N4 : len t = len t').
    { assert (Q : firstn 4 (bytes4 (len t) ++ concat (map (fun o => entry_bytes o ++ bytes2 0) t)) = firstn 4 (bytes4 (len t') ++ body)) by congruence.
      change (bytes4 (len t) = bytes4 (len t')) in Q. assert (U := f_equal unbe Q). rewrite !unbe_bytes4 in U by assumption. exact U. }
    rewrite <- N4 in E. apply app_inv_head in E. subst body. apply rust_holds_unique in H as E; [|assumption|assumption|lia]. subst t'. split; [exact (rust_holds_accepts _ _ H)|reflexivity].
  - intros [A ->]. exists t, (concat (map (fun o => entry_bytes o ++ bytes2 0) t)). split; [exact L|]. split; [reflexivity|]. split; [apply rust_holds_table; assumption|reflexivity].
Qed.
