(** C75: fire-and-forget calls from module to module through the mesh. *)
From Coq Require Import List NArith ZArith Bool Lia Permutation.
From Coq Require Import ZifyBool ZifyNat ZifyN.
From Verif Require Import Base BaseLemmas FramesModel FramesSpec OperationsModel OperationsSpec InvokeModel InvokeSpec InvokeProofs BootModel LookupModel StreamIdModel ProxyModel DispatchModel DispatchSpec.
From Verif Require Import MeshModel MeshSpec MeshProofs CallModel CallSpec RelayModel RelaySpec NamesModel FnfModel FnfSpec FnfProofs FnfRelayModel FnfRelaySpec FnfRelayProofs.
From Verif Require RelayProofs NamesProofs NamesSpec FnfProps.
Import ListNotations.
Open Scope N_scope.

(** ** Effects *)

(** At every moment of every execution no more has been run in the guests than what the calls fired so far are to run: each call the handler it is linked to, once, in the module of that, with the
    caller's data and metadata (without the eight bytes that were used up). *)
Theorem C75_at_most_once : forall G (m : mesh) (exported : nat -> ikind -> list (option G)) n, fmesh_ok m exported n -> forall r, frelay_reach m exported n r ->
  exists more, Permutation (due m exported r) (done r ++ more).
Proof. intros G m exported n Ok r R. exact (at_most_once m exported n Ok r R). Qed.
Print Assumptions C75_at_most_once.

(** When nothing is under way all of it has been run. *)
Theorem C75_exactly_once : forall G (m : mesh) (exported : nat -> ikind -> list (option G)) n, fmesh_ok m exported n -> forall r, frelay_reach m exported n r -> frelay_rest r ->
  Permutation (due m exported r) (done r).
Proof. intros G m exported n Ok r R Z. exact (exactly_once m exported n Ok r R Z). Qed.
Print Assumptions C75_exactly_once.

(** ** Refusals *)

(** A guest is sent refusals of the calls that name no linked import, and of no others: what a linked call finds at the other module it is never told.  No dispatcher returns an error. *)
Theorem C75_told : forall G (m : mesh) (exported : nat -> ikind -> list (option G)) n, fmesh_ok m exported n -> forall r, frelay_reach m exported n r ->
  forall i st, nth_error (z_nets r) i = Some st ->
  (exists more, Permutation (flat_map (call_refusal m i) (fp_calls (fn_peer st Client))) (refusals (fp_in (fn_peer st Client)) ++ more)) /\
  (fat_rest st -> Permutation (flat_map (call_refusal m i) (fp_calls (fn_peer st Client))) (refusals (fp_in (fn_peer st Client)))) /\
  (forall s, fp_errors (fn_peer st s) = []).
Proof.
  intros G m exported n Ok r R i st N0. assert (Ri := zi_reach _ _ _ _ (reach_zinv m exported n Ok r R) i st N0). assert (Fw := ftables_few m exported n Ok i). rewrite <- (refusals_flat m exported i). split; [|split].
  - exact (proj2 (never_more _ _ Fw st Ri Client)).
  - intro Z. exact (proj2 (at_rest_all _ _ Fw st Ri Z Client)).
  - intro s. rewrite (errors_proof _ _ Fw st Ri s). destruct s; reflexivity.
Qed.
Print Assumptions C75_told.

(** ** Nothing gets stuck *)

(** Destinations can always be run and whatever the application may ask can be asked, while there are stream ids; if something is under way something can go on; and what goes on comes to an end. *)
Theorem C75_progress : forall G (m : mesh) (exported : nat -> ikind -> list (option G)) n, fmesh_ok m exported n -> forall r, frelay_reach m exported n r ->
  (spare r -> forall i j st, nth_error (z_nets r) i = Some st -> (j < length (fp_tasks (fn_peer st Server)))%nat ->
     do_zmove m exported r (if own_fmove st (MFTask Server j) then ZNet i (MFTask Server j) else ZForward i j) <> None) /\
  (spare r -> forall a, ask_ok m n a -> do_zmove m exported r (ZAsk a) <> None) /\
  (spare r -> frelay_rest r \/ exists mv r', zallowed m n r mv /\ zinner mv = true /\ do_zmove m exported r mv = Some r') /\
  (forall mv r', zallowed m n r mv -> zinner mv = true -> do_zmove m exported r mv = Some r' -> (fleft r' < fleft r)%nat).
Proof.
  intros G m exported n Ok r R. assert (I := reach_zinv m exported n Ok r R). split; [|split; [|split]].
  - intros Sp i j st N0 L. destruct (nth_error (fp_tasks (fn_peer st Server)) j) as [t|] eqn:T; [|apply nth_error_None in T; lia]. destruct (own_fmove st (MFTask Server j)) eqn:Ow.
    + destruct (net_enabled m exported n r i st _ I N0 Ow) as [r' ->]; [|discriminate]. apply (proj1 (proj2 (enabled_proof _ _ (ftables_few m exported n Ok i) st (zi_reach _ _ _ _ I i st N0)))). exact L.
    + destruct (forward_ok m exported n Ok r i j st t I Sp N0 T Ow) as [r' ->]. discriminate.
  - intros Sp a A. destruct (ask_enabled m exported n Ok r a I Sp A) as [r' ->]. discriminate.
  - exact (goes m exported n Ok r R).
  - intros mv r' A Z E. exact (less m exported n Ok r mv r' R A Z E).
Qed.
Print Assumptions C75_progress.

(** Metadata without room for the index make the application panic, if the name is exported. *)
Theorem C75_short : forall G (m : mesh) (exported : nat -> ikind -> list (option G)) r x data md, len md < 4 -> (do_zmove m exported r (ZAsk (AskMesh x data (Some md))) = None <-> mesh_request m x <> None).
Proof.
  intros G m exported r x data md L. cbn [do_zmove]. destruct (mesh_request m x) as [d|]; [|split; [discriminate|congruence]]. unfold dest_fire. rewrite redirect_short_proof by exact L. split; [discriminate|reflexivity].
Qed.
Print Assumptions C75_short.

(** ** By name *)

(** All that is exported under the name [x] is fire-and-forget handlers. *)
Definition fnf_only {G} (ks : list (package G)) (x : info) : Prop := forall j kd f, NamesSpec.exports ks j kd x f -> kd = FNF /\ f <> None.
(** For modules made with the library, as loaded by the mesh: a call fired with the number the import of a name returned is to run a handler that some module has registered under this very name; nothing, if
    no module has.  The same for what the application fires at the mesh. *)
Theorem C75_by_name : forall G (ks : list (package G)) is m, Forall NamesSpec.sound ks -> NamesSpec.booted ks is -> load_all (map i_ops is) = Ret m ->
  fmesh_ok m (guest_handlers ks) (length ks) /\
  forall x, fnf_only ks x ->
    (forall i k c, nth_error ks i = Some k -> In x (imported FNF (k_calls k)) -> 8 <= len (fc_md c) -> number4 (fc_md c) = index_of (k_calls k) FNF x ->
       ((forall j kd f, ~ NamesSpec.exports ks j kd x f) /\ call_effect m (guest_handlers ks) i c = [] /\ call_refusal m i c = [(fc_sid c, not_found)]) \/
       exists j g, NamesSpec.exports ks j FNF x (Some g) /\ call_effect m (guest_handlers ks) i c = [(j, g, fc_data c, skipn 8 (fc_md c))] /\ call_refusal m i c = []) /\
    (forall data md, 8 <= len md ->
       ((forall j kd f, ~ NamesSpec.exports ks j kd x f) /\ ask_effect m (guest_handlers ks) (AskMesh x data (Some md)) = []) \/
       exists j g, NamesSpec.exports ks j FNF x (Some g) /\ ask_effect m (guest_handlers ks) (AskMesh x data (Some md)) = [(j, g, data, skipn 8 md)]).
Proof.
  intros G ks is m S B E. rewrite (NamesProofs.booted_tables ks is S B) in E. assert (Ok := NamesProofs.mesh_sound ks m S E). assert (T := NamesProofs.tables_ok ks S). set (ts := map (fun k => operation_list (irun (k_calls k))) ks) in *.
  destruct (requests_proof ts T) as (m' & E' & Rq). assert (m' = m) by congruence. subst m'.
  assert (No : forall x, (forall d, ~ In (x, d) (all_exports ts)) -> forall j kd f, ~ NamesSpec.exports ks j kd x f).
  { intros x No j kd f (k & Ek & X). destruct (In_nth_error _ _ X) as [q Eq]. apply (No (mkDest j (N.of_nat q))). apply (NamesProofs.all_exports_in ks x _ S). exists k, kd, f. cbn [d_inst d_index]. rewrite Nat2N.id. split; assumption. }
  assert (Yes : forall x d, fnf_only ks x -> In (x, d) (all_exports ts) -> exists g, NamesSpec.exports ks (d_inst d) FNF x (Some g) /\ at_slot (guest_handlers ks (d_inst d) FNF) (d_index d) = Some g).
  { intros x d P X. apply (NamesProofs.all_exports_in ks x d S) in X as (k' & kd & f & Ej & X). assert (Xp : NamesSpec.exports ks (d_inst d) kd x f) by (exists k'; split; [exact Ej|exact (nth_error_In _ _ X)]).
    destruct (P _ _ _ Xp) as [-> Nf]. destruct f as [g|]; [|contradiction]. exists g. split; [exact Xp|]. unfold at_slot. rewrite NamesProofs.guest_handlers_eq, Ej, nth_error_map. unfold info in *. rewrite X. reflexivity. }
  split; [destruct Ok as [O1 O2]; split; [exact O1|]; split; [exact O2|]|].
  - intros x d Md. rewrite Rq in Md. assert (X : In (x, d) (all_exports ts)) by exact (last_in _ _ _ Md). destruct (RelayProofs.export_where _ _ _ X) as (t & e & A1 & A2 & A3 & A4 & A5).
    assert (L : (d_inst d < length ts)%nat) by (apply nth_error_Some; congruence). unfold ts in L. rewrite map_length in L. split; [exact L|]. rewrite <- A4. exact (NamesProofs.index_small ks S t e (nth_error_In _ _ A1) A2).
  - intros x P. split.
    + intros i k c Ek Ix L8 Nu. assert (Fw : InvokeSpec.few (k_calls k)) by (rewrite Forall_forall in S; apply (S k (nth_error_In _ _ Ek))). destruct x as [ns op].
      assert (Io := proj2 (advertised_imports_proof (k_calls k) FNF _ ns op Fw) (conj Ix eq_refl)). assert (Et : nth_error ts i = Some (operation_list (irun (k_calls k)))) by (unfold ts; exact (map_nth_error _ _ _ Ek)).
      destruct (complete_proof ts i _ _ FNF T Et Io eq_refl eq_refl) as (m' & rr & E'' & Lk & C1 & C2). assert (m' = m) by congruence. subst m'. rewrite (RelayProofs.linked_nth ts m i FNF _ T E) in Lk. cbn [op_index op_ns op_name] in *. rewrite <- Nu in Lk.
      unfold call_effect, call_refusal. destruct (N.ltb_spec (len (fc_md c)) 8); [lia|]. assert (Sl0 : at_slot (m_tabs m i FNF) (number4 (fc_md c)) = rr) by (unfold at_slot; congruence). rewrite Sl0. destruct rr as [d|].
      * right. destruct (Yes (ns, op) d P (C1 d eq_refl)) as (g & Xp & Sl). exists (d_inst d), g. split; [exact Xp|]. unfold export_effect. rewrite Sl. split; reflexivity.
      * left. split; [exact (No _ (C2 eq_refl))|]. split; reflexivity.
    + intros data md L8. unfold ask_effect. destruct (N.ltb_spec (len md) 8); [lia|]. destruct (mesh_request m x) as [d|] eqn:Md; rewrite Rq in Md.
      * right. destruct (Yes x d P (last_in _ _ _ Md)) as (g & Xp & Sl). exists (d_inst d), g. split; [exact Xp|]. unfold export_effect. rewrite Sl. reflexivity.
      * left. rewrite last_none in Md. split; [exact (No x Md)|reflexivity].
Qed.
Print Assumptions C75_by_name.

(** ** An execution *)
Definition ok_fsend (data md : bytes) : bool := forallb (fun b => b <? 256) md && (len md <? 100) && (len data <? 100).
Lemma ok_fsend_sound : forall data md, ok_fsend data md = true -> sendable data md.
Proof. intros data md K. unfold ok_fsend in K. apply andb_true_iff in K. destruct K as [K K3]. apply andb_true_iff in K. destruct K as [K1 K2]. apply FnfProps.ex_sendable; [exact K1|apply N.ltb_lt; exact K2|apply N.ltb_lt; exact K3]. Qed.
Definition ok_spare {G} (r : frelay G) : bool := forallb (fun st => len (fp_calls (fn_peer st Server)) <? 2^62) (z_nets r).
Definition ok_z {G} (n : nat) (r : frelay G) (mv : zmove) : bool :=
  match mv with
  | ZNet i (MFire s data md) => match nth_error (z_nets r) i with Some st => ok_fsend data md && (len (fp_calls (fn_peer st s)) <? 2^62) | None => false end
  | ZNet _ _ => true
  | ZForward _ _ => ok_spare r
  | ZAsk (AskMesh _ data (Some md)) => ok_fsend data md && (4 <=? len md) && ok_spare r
  | ZAsk (AskMesh _ data None) => ok_fsend data [] && ok_spare r
  | ZAsk (AskHost i data md) => Nat.ltb i n && ok_fsend data md && ok_spare r
  end.
Lemma ok_spare_sound : forall G (r : frelay G), ok_spare r = true -> spare r.
Proof. intros G r O. apply Forall_forall. intros st Hs. apply N.ltb_lt. unfold ok_spare in O. rewrite forallb_forall in O. exact (O st Hs). Qed.
Lemma ok_z_allowed : forall G m n (r : frelay G) mv, ok_z n r mv = true -> zallowed m n r mv.
Proof.
  intros G m n r mv O. destruct mv as [i mv|i j|a]; cbn [ok_z zallowed] in *.
  - intros st N0. destruct mv as [s data md|s|s j]; cbn [fallowed]; try exact Logic.I. rewrite N0 in O. apply andb_true_iff in O as [O1 O2]. split; [exact (ok_fsend_sound _ _ O1)|apply N.ltb_lt; exact O2].
  - exact (ok_spare_sound _ _ O).
  - destruct a as [x data [md|]|i data md]; apply andb_true_iff in O as [O1 O2]; (split; [|exact (ok_spare_sound _ _ O2)]); cbn [ask_ok].
    + apply andb_true_iff in O1 as [O1 O3]. split; [exact (ok_fsend_sound _ _ O1)|intros _; apply N.leb_le; exact O3].
    + exact (ok_fsend_sound _ _ O1).
    + apply andb_true_iff in O1 as [O1 O3]. split; [apply Nat.ltb_lt; exact O1|exact (ok_fsend_sound _ _ O3)].
Qed.
Fixpoint ok_zs {G} (m : mesh) (exported : nat -> ikind -> list (option G)) (n : nat) (r : frelay G) (ms : list zmove) : option (frelay G) :=
  match ms with [] => Some r | mv :: ms' => if ok_z n r mv then match do_zmove m exported r mv with Some r' => ok_zs m exported n r' ms' | None => None end else None end.
Lemma ok_zs_reach : forall G m (exported : nat -> ikind -> list (option G)) n ms r r', frelay_reach m exported n r -> ok_zs m exported n r ms = Some r' -> frelay_reach m exported n r'.
Proof.
  induction ms as [|mv ms IH]; intros r r' R E; cbn [ok_zs] in E; [assert (r = r') by congruence; subst r'; exact R|].
  destruct (ok_z n r mv) eqn:O; [|discriminate E]. destruct (do_zmove m exported r mv) as [x|] eqn:D; [|discriminate E]. apply (IH x r'); [|exact E]. exact (z_move _ _ _ r mv x R (ok_z_allowed _ _ _ _ _ O) D).
Qed.
(** The first module imports [1].[2], [9].[9] and [1].[3]; the second exports fire-and-forget handlers [7].[7] and [1].[2] and a request/response handler [1].[3]. *)
Definition z_place : placing := mkPlacing 64 128 200 [] (repeat 5 300).
Definition z_mods : list (package N) :=
  [mkPackage [IImport FNF [1] [2]; IImport FNF [9] [9]; IImport FNF [1] [3]] z_place; mkPackage [IExport FNF [7] [7] (Some 1); IExport FNF [1] [2] (Some 0); IExport RR [1] [3] (Some 5)] z_place].
Lemma z_sound : Forall NamesSpec.sound z_mods.
Proof.
  apply Forall_cons; [|apply Forall_cons; [|apply Forall_nil]]; (split; [reflexivity|]; split; [|split; [reflexivity|vm_compute; discriminate]]);
  unfold names_ok; cbn [k_calls]; repeat (apply Forall_cons; [repeat split; try (apply Forall_cons; [reflexivity|apply Forall_nil]); vm_compute; discriminate|]); apply Forall_nil.
Qed.
Definition z_insts : list instance := flat_map (fun k => match NewInstance (built k) with Done i => [i] | _ => [] end) z_mods.
Definition z_mesh : mesh := match load_all (map i_ops z_insts) with Ret m => m | _ => new_mesh end.
Lemma z_booted : NamesSpec.booted z_mods z_insts /\ load_all (map i_ops z_insts) = Ret z_mesh.
Proof.
  split; [|vm_compute; reflexivity]. unfold NamesSpec.booted. let v := eval vm_compute in z_insts in replace z_insts with v by (vm_cast_no_check (eq_refl v)).
  apply Forall2_cons; [vm_compute; reflexivity|]. apply Forall2_cons; [vm_compute; reflexivity|]. apply Forall2_nil.
Qed.
Lemma z_only : fnf_only z_mods ([1], [2]) /\ fnf_only z_mods ([9], [9]) /\ ~ fnf_only z_mods ([1], [3]).
Proof.
  assert (P : forall x, x <> ([1], [3]) -> fnf_only z_mods x).
  { intros x Nx j kd f (k & Ek & X). destruct j as [|[|j]]; cbn in Ek; [injection Ek as <-|injection Ek as <-|destruct j; discriminate Ek]; destruct kd; cbn in X; try contradiction;
    repeat (destruct X as [X|X]; [injection X as X1 <-; first [exfalso; apply Nx; symmetry; exact X1|split; [reflexivity|discriminate]]|]); contradiction. }
  split; [apply P; discriminate|]. split; [apply P; discriminate|]. intro K. destruct (K 1%nat RR (Some 5)) as [Q _]; [|discriminate Q]. exists (nth 1 z_mods (mkPackage [] z_place)). split; [reflexivity|left; reflexivity].
Qed.
Definition z_run : list zmove :=
  [ZNet 0 (MFire Client [11; 12] [0;0;0;0; 0;0;0;0; 9]); ZNet 0 (MFire Client [13] [0;0;0;1; 0;0;0;0]); ZNet 0 (MFire Client [14] [0;0;0;2; 0;0;0;0; 8]); ZNet 0 (MFire Client [15] [1; 2]);
   ZNet 0 (MFReceive Server); ZNet 0 (MFReceive Server); ZNet 0 (MFReceive Server); ZNet 0 (MFReceive Server); ZForward 0 2; ZForward 0 0; ZAsk (AskMesh ([1], [2]) [16] (Some [0;0;0;0; 0;0;0;0; 7])); ZAsk (AskMesh ([9], [9]) [17] None)].
Definition z_more : list zmove :=
  [ZNet 0 (MFTask Server 1); ZNet 0 (MFTask Server 0); ZNet 0 (MFReceive Client); ZNet 0 (MFReceive Client); ZNet 1 (MFReceive Client); ZNet 1 (MFReceive Client); ZNet 1 (MFReceive Client);
   ZNet 1 (MFTask Client 2); ZNet 1 (MFTask Client 1); ZNet 1 (MFTask Client 0)].
Example C75_ex : exists r r', frelay_reach z_mesh (guest_handlers z_mods) 2 r /\ frelay_reach z_mesh (guest_handlers z_mods) 2 r' /\ frelay_rest r' /\ spare r /\
  due z_mesh (guest_handlers z_mods) r' = [(1%nat, 0, [11; 12], [9]); (1%nat, 1, [14], [8]); (1%nat, 0, [16], [7])] /\ done r = [] /\ done r' = [(1%nat, 0, [16], [7]); (1%nat, 0, [11; 12], [9]); (1%nat, 1, [14], [8])] /\
  map (fun st => refusals (fp_in (fn_peer st Client))) (z_nets r') = [[(7, invalid_metadata); (3, not_found)]; []] /\ fleft r = 21%nat.
Proof.
  let v := eval vm_compute in (ok_zs z_mesh (guest_handlers z_mods) 2 (frelay_create 2) z_run) in
  match v with Some ?r => let u := eval vm_compute in (ok_zs z_mesh (guest_handlers z_mods) 2 r z_more) in
    match u with Some ?r' => exists r, r'; assert (R : frelay_reach z_mesh (guest_handlers z_mods) 2 r) by (apply (ok_zs_reach _ _ _ _ z_run (frelay_create 2) r (z_init _ _ _)); vm_cast_no_check (eq_refl v)); split; [exact R|]; split; [apply (ok_zs_reach _ _ _ _ z_more r r' R); vm_cast_no_check (eq_refl u)|] end end.
  split; [apply Forall_cons; [|apply Forall_cons; [|constructor]]; intros [|]; split; reflexivity|]. split; [apply Forall_cons; [|apply Forall_cons; [|constructor]]; vm_compute; reflexivity|]. vm_compute. repeat split.
Qed.
(** Names are linked whatever the kind: the call of [1].[3], which is a request/response handler at its module, has run what happened to be the first fire-and-forget handler there, [7].[7].  So it is not true
    that only handlers exported under the name called are run. *)
Theorem C75_kind_refuted : ~ (forall (ks : list (package N)) is m, Forall NamesSpec.sound ks -> NamesSpec.booted ks is -> load_all (map i_ops is) = Ret m -> forall i k x c j g data md, nth_error ks i = Some k -> In x (imported FNF (k_calls k)) ->
  8 <= len (fc_md c) -> number4 (fc_md c) = index_of (k_calls k) FNF x -> In (j, g, data, md) (call_effect m (guest_handlers ks) i c) -> exists kd, NamesSpec.exports ks j kd x (Some g)).
Proof.
  intro K. destruct (K z_mods z_insts z_mesh z_sound (proj1 z_booted) (proj2 z_booted) 0%nat _ ([1], [3]) (mkFCall 5 [14] [0;0;0;2; 0;0;0;0; 8]) 1%nat 1 [14] [8] eq_refl) as (kd & k & Ek & X).
  - cbn. auto.
  - vm_compute. discriminate.
  - vm_compute. reflexivity.
  - let v := eval vm_compute in (call_effect z_mesh (guest_handlers z_mods) 0 (mkFCall 5 [14] [0;0;0;2; 0;0;0;0; 8])) in replace (call_effect z_mesh (guest_handlers z_mods) 0 (mkFCall 5 [14] [0;0;0;2; 0;0;0;0; 8])) with v by (vm_cast_no_check (eq_refl v)). left. reflexivity.
  - injection Ek as <-. destruct kd; cbn in X; repeat (destruct X as [X|X]; [discriminate X|]); contradiction.
Qed.
Print Assumptions C75_kind_refuted.
