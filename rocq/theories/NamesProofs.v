(** Proofs about calls by name. *)
From Coq Require Import List NArith ZArith Lia Bool ZifyBool ZifyNat ZifyN.
From Verif Require Import Base BaseLemmas FramesModel FramesSpec OperationsModel OperationsSpec InvokeModel InvokeSpec InvokeProofs BootModel BootSpec BootProofs LookupModel StreamIdModel MonoModel ProxyModel DispatchModel DispatchSpec DispatchProofs.
From Verif Require Import MeshModel MeshSpec MeshProofs CallModel CallSpec CallInv CallProofs CallProps RelayModel RelaySpec RelayProofs RelayProps NamesModel.
From Verif Require Import OutcomeModel OutcomeSpec MsgpackModel MsgpackSpec TransformModel TransformSpec StubModel StubSpec StubProofs NamesSpec.
Import ListNotations.
Open Scope N_scope.

(** ** Tables of library guests can be linked *)
Lemma slots_app : forall a b, import_slots (a ++ b) = import_slots a ++ import_slots b.
Proof. intros a b. apply flat_map_app. Qed.
Lemma slots_export : forall l ty i, import_slots (convert_from i l ty ExportDir) = [].
Proof. induction l as [|[ns op] l IH]; intros ty i; [reflexivity|]. cbn [convert_from]. unfold import_slots. cbn [flat_map op_dir]. apply IH. Qed.
Lemma slots_import : forall l ty i, i + len l <= 2^32 -> import_slots (convert_from i l ty ImportDir) = map (fun p => (ty, i + N.of_nat p)) (seq 0 (length l)).
Proof.
  induction l as [|[ns op] l IH]; intros ty i L; [reflexivity|]. rewrite len_cons in L. cbn [convert_from]. unfold import_slots. cbn [flat_map op_dir op_type op_index length seq map]. change (ImportDir =? 2) with true. cbn iota. cbn [app].
  f_equal; [f_equal; unfold u32; rewrite N.mod_small; lia|]. fold (import_slots (convert_from (i + 1) l ty ImportDir)). rewrite IH by lia. rewrite <- seq_shift, map_map. apply map_ext. intro a. f_equal. lia.
Qed.
Lemma nodup_two : forall A (a b : list A), NoDup a -> NoDup b -> (forall x, In x a -> ~ In x b) -> NoDup (a ++ b).
Proof. induction a as [|x a IH]; intros b Na Nb D; [exact Nb|]. inversion Na as [|? ? N1 N2]; subst. cbn [app]. constructor; [intro X; apply in_app_or in X as [X|X]; [exact (N1 X)|exact (D x (or_introl eq_refl) X)]|]. apply IH; [exact N2|exact Nb|intros y Y; exact (D y (or_intror Y))]. Qed.
Lemma slots_nodup : forall ty n, NoDup (map (fun p => (ty : N, 0 + N.of_nat p)) (seq 0 n)).
Proof. intros ty n. generalize 0%nat as a. induction n as [|n IH]; intro a; cbn [seq map]; constructor; [|apply IH]. intro X. apply in_map_iff in X as (q & Q & R). apply in_seq in R. injection Q as Q. lia. Qed.
Lemma library_table : forall G (h : list (icall G)), InvokeSpec.few h -> table_ok (operation_list (irun h)).
Proof.
  intros G h F. assert (S : forall k, len (imports_of k (irun h)) < 2^32) by (intro k; rewrite irun_imports; exact (firsts_small k h F)).
  assert (E : import_slots (operation_list (irun h)) = concat (map (fun k => map (fun p => (type_no k, 0 + N.of_nat p)) (seq 0 (length (imports_of k (irun h))))) [RR; FNF; RS; RC])).
  { unfold operation_list, convertOperations. rewrite !slots_app, !slots_export. cbn [app].
    cbn [concat map type_no]. rewrite app_nil_r.
    assert (S' : forall k, 0 + len (imports_of k (irun h)) <= 2^32) by (intro k; specialize (S k); lia).
    assert (A1 := slots_import _ 1 0 (S' RR)). assert (A2 := slots_import _ 2 0 (S' FNF)). assert (A3 := slots_import _ 3 0 (S' RS)). assert (A4 := slots_import _ 4 0 (S' RC)).
    cbn [imports_of] in *. rewrite A1, A2, A3, A4. reflexivity. }
  unfold table_ok. rewrite E. split.
  - cbn [concat map type_no]. assert (D : forall a b n l, In (a, b) (map (fun p => (n : N, 0 + N.of_nat p)) l) -> a = n) by (intros a b n l X; apply in_map_iff in X as (q & Q & _); injection Q as Q _; congruence).
    repeat (apply nodup_two; [apply slots_nodup| |]); try apply NoDup_nil; intros [a b] X Y; apply D in X; subst a; repeat (apply in_app_or in Y as [Y|Y]; [apply D in Y; discriminate Y|]); try destruct Y.
  - apply Forall_forall. intros [a b] X. apply in_concat in X as (l & X1 & X2). apply in_map_iff in X1 as (k & <- & _). apply in_map_iff in X2 as (q & Q & R). injection Q as _ <-. cbn [snd]. apply in_seq in R. specialize (S k). unfold len in S. lia.
Qed.

(** ** Booted packages *)
Section Names.
Context {G : Type}.
Lemma booted_tables : forall (ks : list (package G)) is, Forall sound ks -> booted ks is -> map i_ops is = map (fun k => operation_list (irun (k_calls k))) ks.
Proof.
  intros ks is S B. induction B as [|k i ks is E B IH]; [reflexivity|]. inversion S as [|? ? (F & N & Sz & L) S2]; subst. cbn [map]. rewrite (IH S2). f_equal.
  unfold built in E. rewrite (boot_library G (k_calls k) (k_place k) F N Sz L) in E. injection E as <-. reflexivity.
Qed.
Lemma boot_all : forall (ks : list (package G)), Forall sound ks -> exists is, booted ks is.
Proof.
  induction ks as [|k ks IH]; intro S; [exists []; constructor|]. inversion S as [|? ? (F & N & Sz & L) S2]; subst. destruct (IH S2) as [is B]. eexists (_ :: is). constructor; [|exact B]. exact (boot_library G (k_calls k) (k_place k) F N Sz L).
Qed.
Lemma tables_ok : forall (ks : list (package G)), Forall sound ks -> Forall table_ok (map (fun k => operation_list (irun (k_calls k))) ks).
Proof. intros ks S. apply Forall_forall. intros t Ht. apply in_map_iff in Ht as (k & <- & Hk). rewrite Forall_forall in S. apply library_table, (S k Hk). Qed.
Lemma load_any : forall ts, Forall table_ok ts -> exists m, load_all ts = Ret m.
Proof. intros ts F. destruct (requests_proof ts F) as (m & E & _). exists m. exact E. Qed.
Lemma guest_handlers_eq : forall (ks : list (package G)) j k, guest_handlers ks j k = match nth_error ks j with Some p => map snd (exported k (k_calls p)) | None => [] end.
Proof. intros ks j k. unfold guest_handlers. destruct (nth_error ks j) as [p|]; [|reflexivity]. rewrite <- (proj2 (irun_exports (k_calls p) k)). destruct k; reflexivity. Qed.
Lemma handlers_few : forall (ks : list (package G)), Forall sound ks -> forall j k, len (guest_handlers ks j k) < 2^32.
Proof.
  intros ks S j k. rewrite guest_handlers_eq. destruct (nth_error ks j) as [p|] eqn:E; [|reflexivity]. rewrite Forall_forall in S. destruct (S p (nth_error_In _ _ E)) as (F & _). unfold InvokeSpec.few in F.
  unfold len. rewrite map_length. fold (len (exported k (k_calls p))). assert (X := exported_len k (k_calls p)). lia.
Qed.
Lemma index_small : forall (ks : list (package G)), Forall sound ks -> forall t o, In t (map (fun k => operation_list (irun (k_calls k))) ks) -> In o t -> op_index o < 2^32.
Proof.
  intros ks S t o Ht Ho. apply in_map_iff in Ht as (k & <- & Hk). rewrite Forall_forall in S. destruct (S k Hk) as (F & N & _). destruct (operation_list_range (k_calls k) F N) as [R _]. rewrite Forall_forall in R. apply (R o Ho).
Qed.
Lemma mesh_sound : forall (ks : list (package G)) m, Forall sound ks -> load_all (map (fun k => operation_list (irun (k_calls k))) ks) = Ret m -> mesh_ok m (guest_handlers ks) (length ks).
Proof. intros ks m S E. assert (X := loaded_ok G (guest_handlers ks) _ m (tables_ok ks S) (index_small ks S) (handlers_few ks S) E). rewrite map_length in X. exact X. Qed.

(** What the exports of a name are in the tables. *)
Lemma typed : forall (h : list (icall G)) e, InvokeSpec.few h -> In e (operation_list (irun h)) -> exists kd, op_type e = type_no kd.
Proof.
  intros h e F I0. rewrite operation_list_in in I0; [destruct I0 as [(k & A & _)|(k & A & _)]; exists k; exact A|].
  intro k'. rewrite irun_imports. destruct (irun_exports h k') as [-> _]. split; [|apply firsts_small; exact F]. assert (L := exported_len k' h). unfold InvokeSpec.few in F. unfold len in *. rewrite map_length. lia.
Qed.
Lemma all_exports_in : forall (ks : list (package G)) x d, Forall sound ks -> (In (x, d) (all_exports (map (fun k => operation_list (irun (k_calls k))) ks)) <->
  exists k kd f, nth_error ks (d_inst d) = Some k /\ nth_error (exported kd (k_calls k)) (N.to_nat (d_index d)) = Some (x, f)).
Proof.
  intros ks [ns op] d S. assert (Fw : forall j k, nth_error ks j = Some k -> InvokeSpec.few (k_calls k)) by (intros j k E; rewrite Forall_forall in S; apply (S k (nth_error_In _ _ E))). split.
  - intro X. destruct (export_where _ _ _ X) as (u & e & A1 & A2 & A3 & A4 & A5). rewrite nth_error_map in A1. destruct (nth_error ks (d_inst d)) as [k|] eqn:E; [|discriminate A1]. injection A1 as <-.
    assert (Ty := typed (k_calls k) e (Fw _ _ E) A2).
    destruct Ty as [kd Ty]. assert (Eo : e = mkOp (d_index d) (type_no kd) 1 ns op) by (destruct e; cbn in *; congruence). subst e.
    apply (advertised_exports_proof (k_calls k) kd (d_index d) ns op (Fw _ _ E)) in A2 as (f & A2). exists k, kd, f. split; [reflexivity|exact A2].
  - intros (k & kd & f & E & X). assert (Y := proj2 (advertised_exports_proof (k_calls k) kd (d_index d) ns op (Fw _ _ E)) (ex_intro _ f X)).
    assert (Z := export_in (map (fun k => operation_list (irun (k_calls k))) ks) (d_inst d) (operation_list (irun (k_calls k))) _ (map_nth_error _ _ _ E) Y eq_refl). cbn [op_ns op_name op_index] in Z. destruct d; exact Z.
Qed.

(** ** Calls by name *)
Theorem named : forall (ks : list (package G)) m r i k x st c o, Forall sound ks -> load_all (map (fun k => operation_list (irun (k_calls k))) ks) = Ret m ->
  relay_reach m (guest_handlers ks) (length ks) r -> nth_error ks i = Some k -> In x (imported RR (k_calls k)) -> plain ks x ->
  nth_error (y_nets r) i = Some st -> In c (p_calls (n_peer st Client)) -> 8 <= len (c_md c) -> number4 (c_md c) = index_of (k_calls k) RR x -> CallSpec.results c = [o] -> answered ks r x c o.
Proof.
  intros ks m r i k x st c o S E R Ek Ix P N0 Hc L8 Nu Rc. assert (Ok := mesh_sound ks m S E). assert (T := tables_ok ks S). set (ts := map (fun k => operation_list (irun (k_calls k))) ks) in *.
  assert (Fw : InvokeSpec.few (k_calls k)) by (rewrite Forall_forall in S; apply (S k (nth_error_In _ _ Ek))). destruct x as [ns op].
  assert (Io := proj2 (advertised_imports_proof (k_calls k) RR _ ns op Fw) (conj Ix eq_refl)). assert (Et : nth_error ts i = Some (operation_list (irun (k_calls k)))) by (unfold ts; exact (map_nth_error _ _ _ Ek)).
  destruct (complete_proof ts i _ _ RR T Et Io eq_refl eq_refl) as (m' & rr & E' & Lk & C1 & C2). assert (m' = m) by congruence. subst m'. rewrite (linked_nth ts m i RR _ T E) in Lk. cbn [op_index op_ns op_name] in *. rewrite <- Nu in Lk.
  destruct (In_nth_error _ _ Hc) as [n Ec]. destruct (relayed_all m (guest_handlers ks) _ Ok r i st n c o R N0 Ec Rc) as [[Nl Oo]|(d & [_ Lt] & Q)].
  - left. split; [|rewrite Oo; destruct (N.ltb_spec (len (c_md c)) 8); [lia|reflexivity]]. intros j kd f (k' & Ej & X). destruct (In_nth_error _ _ X) as [q Eq].
    assert (Y : In ((ns, op), mkDest j (N.of_nat q)) (all_exports ts)) by (apply (all_exports_in ks (ns, op) _ S); exists k', kd, f; cbn [d_inst d_index]; rewrite Nat2N.id; split; assumption).
    destruct (nth_error (m_tabs m i RR) (N.to_nat (number4 (c_md c)))) as [[d|]|] eqn:Sl; [|exact (C2 ltac:(congruence) _ Y)|exact (C2 ltac:(congruence) _ Y)]. exact (Nl d (conj L8 Sl)).
  - right. rewrite Lt in Lk. assert (X : In ((ns, op), d) (all_exports ts)) by (apply C1; congruence). apply (all_exports_in ks (ns, op) d S) in X as (k' & kd & f & Ej & X).
    assert (Xp : exports ks (d_inst d) kd (ns, op) f) by (exists k'; split; [exact Ej|exact (nth_error_In _ _ X)]). destruct (P _ _ _ Xp) as [-> Nf]. destruct f as [g|]; [|contradiction]. 
    assert (Hg : nth_error (guest_handlers ks (d_inst d) RR) (N.to_nat (d_index d)) = Some (Some g)) by (rewrite guest_handlers_eq, Ej, nth_error_map; unfold info in *; rewrite X; reflexivity).
    destruct Q as [[Ng _]|(sj & y & g' & B1 & B2 & B3 & B4 & B5 & B6 & B7)]; [destruct (Ng g Hg)|]. assert (g' = g) by congruence. subst g'.
    exists (d_inst d), g, sj, y. split; [exact Xp|]. do 4 (split; [assumption|]). split; assumption.
Qed.

(** The application asks the mesh for a name (mesh.go:62-75). *)
Theorem asked : forall (ks : list (package G)) m r x d md md' st c o, Forall sound ks -> load_all (map (fun k => operation_list (irun (k_calls k))) ks) = Ret m ->
  relay_reach m (guest_handlers ks) (length ks) r -> plain ks x -> mesh_request m x = Some d -> wf md -> 8 <= len md -> redirect d (Some md) = Ret (Some md') ->
  nth_error (y_nets r) (d_inst d) = Some st -> In c (p_calls (n_peer st Server)) -> c_md c = md' -> CallSpec.results c = [o] ->
  exists g y, exports ks (d_inst d) RR x (Some g) /\ In y (p_runs (n_peer st Client)) /\ r_handler y = inr g /\ r_data y = c_data c /\ r_md y = skipn 8 md /\ r_out y = Some o.
Proof.
  intros ks m r x d md md' st c o S E R P Md Wf L8 Rd N0 Hc Cm Rc. assert (Ok := mesh_sound ks m S E). assert (T := tables_ok ks S). set (ts := map (fun k => operation_list (irun (k_calls k))) ks) in *.
  destruct (requests_proof ts T) as (m' & E' & Rq). assert (m' = m) by congruence. subst m'. rewrite Rq in Md. assert (X : In (x, d) (all_exports ts)) by exact (last_in _ _ _ Md).
  apply (all_exports_in ks x d S) in X as (k' & kd & f & Ej & X). assert (Xp : exports ks (d_inst d) kd x f) by (exists k'; split; [exact Ej|exact (nth_error_In _ _ X)]). destruct (P _ _ _ Xp) as [-> Nf]. destruct f as [g|]; [|contradiction].
  assert (Hg : nth_error (guest_handlers ks (d_inst d) RR) (N.to_nat (d_index d)) = Some (Some g)) by (rewrite guest_handlers_eq, Ej, nth_error_map; unfold info in *; rewrite X; reflexivity).
  assert (Ld : d_index d < 2^32).
  { assert (Q := handlers_few ks S (d_inst d) RR). assert (Z : (N.to_nat (d_index d) < length (guest_handlers ks (d_inst d) RR))%nat) by (apply nth_error_Some; rewrite Hg; discriminate). unfold len in Q. lia. }
  rewrite redirect_proof in Rd by lia. assert (Em : md' = be 4 (d_index d) ++ skipn 4 md) by congruence. rewrite Em in Cm. clear Em Rd.
  assert (Wm : wf (be 4 (d_index d) ++ skipn 4 md)) by (apply wf_app; split; [apply be_wf|apply Forall_forall; intros b Hb; unfold wf in Wf; rewrite Forall_forall in Wf; apply Wf; rewrite <- (firstn_skipn 4 md); apply in_or_app; right; exact Hb]).
  assert (Lm : len (be 4 (d_index d) ++ skipn 4 md) = len md) by (rewrite len_app, be_len, len_skipn; lia).
  assert (Nu : number4 (c_md c) = d_index d).
  { rewrite Cm. rewrite <- number4_unbe; [|exact Wm|lia]. rewrite firstn_len_app by (symmetry; apply be_length). apply unbe_be_small. exact Ld. }
  destruct (In_nth_error _ _ Hc) as [n Ec]. destruct (reach_yinv m (guest_handlers ks) _ Ok r R) as (B & _ & _).
  destruct (C41_outcome _ _ _ (tables_few m (guest_handlers ks) _ Ok (d_inst d)) st (yb_reach _ _ _ _ B _ _ N0) Server _ _ Ec) as [Q|(o' & Q & Oc)]; [congruence|]. assert (o' = o) by congruence. subst o'.
  assert (Nm : names (relay_tbl m (guest_handlers ks) (d_inst d) Client) RR (c_md c) (inr g)).
  { split; [rewrite Cm; lia|]. rewrite Nu. cbn [relay_tbl]. rewrite nth_error_map, Hg. reflexivity. }
  destruct Oc as [(y & Hy & (_ & Yn & Yd & Ym) & Yo)|[No _]]; [|destruct (No _ Nm)]. exists g, y. split; [exact Xp|]. split; [exact Hy|].
  split; [destruct Nm as [_ A1]; destruct Yn as [_ A2]; cbn [other] in A2; congruence|]. split; [exact Yd|]. split; [|exact Yo].
  rewrite Ym, Cm. cbn [relay_site other handler_metadata]. apply skip8.
Qed.
End Names.

(** ** Services *)
Section Services.
Context {G : Type} (f64to32 : N -> N) (pt : bytes -> option gtime) (text : rerr -> bytes) (svc : G -> service).
(** What one move does to the runs of handlers. *)
Lemma runs_step : forall H (w : side -> site) (tbl : side -> ikind -> list (option H)) st m st', do_move w tbl st m = Some st' -> forall t r, In r (p_runs (n_peer st' t)) ->
  In r (p_runs (n_peer st t)) \/ r_out r = None \/
  exists i o r0, m = MConclude t i o /\ nth_error (p_runs (n_peer st t)) i = Some r0 /\ r_out r = Some o /\ r_handler r = r_handler r0 /\ r_sid r = r_sid r0 /\ r_data r = r_data r0.
Proof.
  intros H w tbl st m st' D.
  assert (Sd : forall t s : side, side_eqb t s = true -> t = s) by (intros [|] [|]; cbn; congruence).
  assert (K : forall s p, (forall r, In r (p_runs p) -> In r (p_runs (n_peer st s)) \/ r_out r = None) -> forall t r, In r (p_runs (n_peer (set_peer st s p) t)) -> In r (p_runs (n_peer st t)) \/ r_out r = None).
  { intros s p Hp t r Hr. rewrite set_peer_runs in Hr. destruct (side_eqb t s) eqn:Q; [apply Sd in Q; subst t; apply Hp, Hr|left; exact Hr]. }
  assert (Z : forall P : Prop, forall t r, In r (p_runs (n_peer st t)) \/ r_out r = None -> In r (p_runs (n_peer st t)) \/ r_out r = None \/ P) by (intros P t r [A|A]; auto).
  destruct m as [s data md|s k|s|s i|s i o]; cbn [do_move] in D.
  - intros t r Hr. apply Z. revert t r Hr. destruct (Next 2 s (p_counter (n_peer st s))) as [[c [sid q]]|]; [|discriminate D]. injection D as <-. apply K. intros r Hr. left. exact Hr.
  - intros t r Hr. apply Z. revert t r Hr. destruct (nth_error (p_calls (n_peer st s)) k) as [c|]; [|discriminate D]. destruct (register (n_peer st s) (c_sid c) k) as [p|] eqn:Rg; [|discriminate D].
    intros t r Hr. rewrite (post_runs _ _ _ _ D) in Hr. revert t r Hr. apply K. intros r Hr. left.
    assert (Q : p_runs p = p_runs (n_peer st s)).
    { unfold register in Rg. destruct (N.odd (c_sid c)); [destruct (Add (p_odd (n_peer st s)) (c_sid c) k)|destruct (Add (p_even (n_peer st s)) (c_sid c) k)]; try discriminate Rg; injection Rg as <-; reflexivity. }
    unfold set_call in Hr. destruct (nth_error (p_calls p) k); cbn [p_runs] in Hr; rewrite Q in Hr; exact Hr.
  - intros t r Hr. apply Z. revert t r Hr. destruct (n_wire st s) as [|bs rest]; [discriminate D|]. destruct (received w tbl s (n_peer st s) bs) as [l|x|]; [| |discriminate D].
    + destruct (perform_all (n_peer st s) l) as [p|] eqn:P; [|discriminate D]. injection D as <-. cbn [set_wire n_peer]. apply K. intros r Hr. left. rewrite (perform_runs _ _ _ P) in Hr. exact Hr.
    + injection D as <-. intros t r Hr. left. exact Hr.
  - intros t r Hr. apply Z. revert t r Hr. destruct (cut i (p_tasks (n_peer st s))) as [[[l t0] q]|]; [|discriminate D]. destruct t0; try discriminate D.
    + intros t r Hr. rewrite (post_runs _ _ _ _ D) in Hr. revert t r Hr. apply K. intros r Hr. left. exact Hr.
    + injection D as <-. apply K. cbn [p_runs]. intros r Hr. apply in_app_or in Hr as [Hr|[<-|[]]]; [left; exact Hr|right; reflexivity].
  - unfold cut in D. destruct (nth_error (p_runs (n_peer st s)) i) as [[h sid d m0 [o'|]]|] eqn:E; [discriminate D| |discriminate D]. intros t r Hr. rewrite (post_runs _ _ _ _ D) in Hr. rewrite set_peer_runs in Hr.
    destruct (side_eqb t s) eqn:Q; [|left; exact Hr]. apply Sd in Q. subst t. cbn [p_runs] in Hr. apply in_app_or in Hr as [Hr|[<-|Hr]].
    + left. rewrite <- (firstn_skipn i). apply in_or_app. left. exact Hr.
    + right. right. exists i, o, (mkRun h sid d m0 None). repeat split; try reflexivity. exact E.
    + left. rewrite <- (firstn_skipn (S i)). apply in_or_app. right. exact Hr.
Qed.

Definition kept_word (r : relay G) : Prop := forall i st y g o, nth_error (y_nets r) i = Some st -> In y (p_runs (n_peer st Client)) -> r_handler y = inr g -> r_out y = Some o -> wrapper_answers f64to32 pt text (svc g) (r_sid y) (r_data y) = [o].
Lemma net_kept : forall m hs (r : relay G) i mv r', kept_word r -> net_move m hs r i mv = Some r' -> (forall n o, mv <> MConclude Client n o) \/ relay_served f64to32 pt text svc r (RNet i mv) -> kept_word r'.
Proof.
  intros m hs r i mv r' K E Sv. destruct (net_move_some m hs r i mv r' E) as (st & st' & N0 & D & ->). intros j sj y g o Nj Hy Hh Ho. cbn [y_nets] in Nj.
  destruct (Nat.eq_dec j i) as [->|Ne]; [|rewrite put_other in Nj by exact Ne; exact (K j sj y g o Nj Hy Hh Ho)]. rewrite (put_same _ _ _ _ _ N0) in Nj. injection Nj as <-.
  destruct (runs_step _ _ _ _ _ _ D Client y Hy) as [X|[X|(n & o' & y0 & -> & E0 & A1 & A2 & A3 & A4)]]; [exact (K i st y g o N0 X Hh Ho)|congruence|].
  destruct Sv as [Sv|Sv]; [destruct (Sv n o' eq_refl)|]. cbn [relay_served] in Sv. assert (o' = o) by congruence. subst o'. rewrite A3, A4. apply (Sv st y0 g N0 E0). congruence.
Qed.
Lemma served_runs : forall m hs n r, served_reach f64to32 pt text svc m hs n r -> relay_reach m hs n r /\ kept_word r.
Proof.
  intros m hs n r R. induction R as [|r mv r' R [IH K] A Sv D].
  - split; [constructor|]. intros i st y g o N0 Hy. cbn [relay_create y_nets] in N0. apply nth_error_In, repeat_spec in N0. subst st. destruct Hy.
  - split; [exact (y_move _ _ _ r mv r' IH A D)|]. destruct mv as [i mv|i j|q].
    + cbn [do_relay] in D. destruct (nth_error (y_nets r) i) as [st|]; [|discriminate D]. destruct (own_move st mv); [|discriminate D]. exact (net_kept m hs r i mv r' K D (or_intror Sv)).
    + cbn [do_relay] in D. repeat match type of D with match ?x with _ => _ end = _ => destruct x eqn:?; try discriminate D end. injection D as <-.
      match goal with Q3 : net_move m hs ?r2 _ (MSubscribe Server _) = Some ?r3, Q2 : net_move m hs ?r1 _ (MCall Server _ _) = Some ?r2, Q1 : net_move m hs r i (MTask Server j) = Some ?r1 |- _ =>
        assert (K1 : kept_word r1) by (apply (net_kept m hs _ _ _ _ K Q1); left; discriminate); assert (K2 : kept_word r2) by (apply (net_kept m hs _ _ _ _ K1 Q2); left; discriminate);
        assert (K3 : kept_word r3) by (apply (net_kept m hs _ _ _ _ K2 Q3); left; discriminate); exact K3 end.
    + cbn [do_relay] in D. repeat match type of D with match ?x with _ => _ end = _ => destruct x eqn:?; try discriminate D end. apply (net_kept m hs _ _ _ _ K D). left. discriminate.
Qed.

Theorem named_service : forall (ks : list (package G)) m r i k x st c o sc e kd, Forall sound ks -> load_all (map (fun k => operation_list (irun (k_calls k))) ks) = Ret m ->
  served_reach f64to32 pt text svc m (guest_handlers ks) (length ks) r -> nth_error ks i = Some k -> In x (imported RR (k_calls k)) -> plain ks x ->
  nth_error (y_nets r) i = Some st -> In c (p_calls (n_peer st Client)) -> stub_call sc (index_of (k_calls k) RR x) e = Ret (c_data c, c_md c) -> CallSpec.results c = [o] ->
  callable sc e -> (forall j g, exports ks j RR x (Some g) -> NoDup (map fst (sv_schema (svc g))) /\ readable sc e (sv_schema (svc g)) /\ returns (svc g) kd) ->
  ((forall j kd f, ~ exports ks j kd x f) /\ user_sees f64to32 pt text kd c = [inr not_found]) \/
  exists j g sid v, exports ks j RR x (Some g) /\ outcome_of (sv_body (svc g) sid (seen sc e (svc g))) = Some v /\ user_sees f64to32 pt text kd c = [v].
Proof.
  intros ks m r i k x st c o sc e kd S E R Ek Ix P N0 Hc Sc Rc C Sv. destruct (served_runs _ _ _ _ R) as [R' K]. unfold stub_call in Sc. destruct (codec_encode sc e) as [data| |] eqn:Ce; cbn [bind] in Sc; try discriminate Sc.
  assert (Q1 : data = c_data c) by congruence. assert (Q2 : c_md c = stub_metadata (index_of (k_calls k) RR x)) by congruence. clear Sc. subst data.
  assert (Fw : InvokeSpec.few (k_calls k)) by (rewrite Forall_forall in S; apply (S k (nth_error_In _ _ Ek))).
  assert (L : index_of (k_calls k) RR x < 2^32).
  { assert (X := position_proof (k_calls k) RR x Fw Ix). assert (Y := firsts_small RR (k_calls k) Fw). assert (Z : (N.to_nat (index_of (k_calls k) RR x) < length (firsts (imported RR (k_calls k))))%nat) by (apply nth_error_Some; rewrite X; discriminate). unfold len in Y. lia. }
  assert (Nu : number4 (c_md c) = index_of (k_calls k) RR x).
  { rewrite Q2. rewrite <- number4_unbe; [|apply stub_metadata_wf|rewrite stub_metadata_len; lia]. unfold stub_metadata. rewrite firstn_len_app by (symmetry; apply be_length). apply unbe_be_small. exact L. }
  assert (L8 : 8 <= len (c_md c)) by (rewrite Q2, stub_metadata_len; lia).
  unfold user_sees. rewrite Rc. destruct (named ks m r i k x st c o S E R' Ek Ix P N0 Hc L8 Nu Rc) as [[No ->]|(j & g & sj & y & X & Nj & Hy & Hh & Hd & _ & Ho)].
  - left. split; [exact No|]. apply sees_error.
  - right. destruct (Sv j g X) as (ND & Rd & Rt). assert (W := K j sj y g o Nj Hy Hh Ho). rewrite Hd in W. unfold wrapper_answers in W.
    rewrite (wrapper_calls f64to32 pt text sc e (svc g) (r_sid y) (c_data c) C ND Rd Ce) in W. destruct (sees_wrapped f64to32 pt text kd (svc g) _ o Rt (ex_intro _ _ (ex_intro _ _ eq_refl)) W) as (v & V1 & V2).
    exists j, g, (r_sid y), v. split; [exact X|]. split; [exact V1|exact V2].
Qed.
End Services.
