(** C68: calls by name, from what modules register to what callers see. *)
From Coq Require Import List NArith ZArith Lia Bool.
From Verif Require Import Base BaseLemmas FramesModel FramesSpec OperationsModel OperationsSpec InvokeModel InvokeSpec InvokeProofs BootModel BootSpec BootProofs LookupModel StreamIdModel MonoModel ProxyModel DispatchModel DispatchSpec DispatchProofs.
From Verif Require Import MeshModel MeshSpec MeshProofs CallModel CallSpec CallInv CallProofs CallProps RelayModel RelaySpec RelayProofs RelayProps NamesModel.
From Verif Require Import OutcomeModel OutcomeSpec MsgpackModel MsgpackSpec TransformModel TransformSpec StubModel StubSpec StubProofs MsgpackProps TransformProps StubProps NamesSpec NamesProofs.
Import ListNotations.
Open Scope N_scope.

(** C68. Any modules made with the library can be booted and loaded, in any order and whatever they import and export. *)
Theorem C68_loads : forall G (ks : list (package G)), Forall sound ks -> exists is m, booted ks is /\ load_all (map i_ops is) = Ret m.
Proof.
  intros G ks S. destruct (boot_all ks S) as [is B]. destruct (load_any _ (tables_ok ks S)) as [m E]. exists is, m. split; [exact B|]. rewrite (booted_tables ks is S B). exact E.
Qed.
Print Assumptions C68_loads.

(** A call made with the number the import of a name returned is answered by a handler that some module has registered under this very name, with the caller's data; or it is refused, if no
    module has. *)
Theorem C68_call : forall G (ks : list (package G)) is m, Forall sound ks -> booted ks is -> load_all (map i_ops is) = Ret m ->
  forall r, relay_reach m (guest_handlers ks) (length ks) r ->
  forall i k x, nth_error ks i = Some k -> In x (imported RR (k_calls k)) -> plain ks x ->
  forall st c, nth_error (y_nets r) i = Some st -> In c (p_calls (n_peer st Client)) -> 8 <= len (c_md c) -> number4 (c_md c) = index_of (k_calls k) RR x ->
  CallSpec.results c = [] \/ exists o, CallSpec.results c = [o] /\ answered ks r x c o.
Proof.
  intros G ks is m S B E r R i k x Ek Ix P st c N0 Hc L8 Nu. rewrite (booted_tables ks is S B) in E.
  destruct (C65_outcome G m (guest_handlers ks) _ (mesh_sound ks m S E) r R i st c N0 Hc) as [Q|(o & Q & _)]; [left; exact Q|right]. exists o. split; [exact Q|]. exact (named ks m r i k x st c o S E R Ek Ix P N0 Hc L8 Nu Q).
Qed.
Print Assumptions C68_call.

(** When nothing is under way, every such call that was subscribed to has its outcome. *)
Theorem C68_at_rest : forall G (ks : list (package G)) is m, Forall sound ks -> booted ks is -> load_all (map i_ops is) = Ret m ->
  forall r, relay_reach m (guest_handlers ks) (length ks) r -> relay_rest r ->
  forall i k x, nth_error ks i = Some k -> In x (imported RR (k_calls k)) -> plain ks x ->
  forall st c, nth_error (y_nets r) i = Some st -> In c (p_calls (n_peer st Client)) -> c_subscribed c = true -> 8 <= len (c_md c) -> number4 (c_md c) = index_of (k_calls k) RR x ->
  exists o, CallSpec.results c = [o] /\ answered ks r x c o.
Proof.
  intros G ks is m S B E r R Z i k x Ek Ix P st c N0 Hc Sb L8 Nu. rewrite (booted_tables ks is S B) in E.
  assert (Q := C65_at_rest G m (guest_handlers ks) _ (mesh_sound ks m S E) r R Z i st c N0 Hc). rewrite Sb in Q. destruct Q as (o & Q & _). exists o. split; [exact Q|]. exact (named ks m r i k x st c o S E R Ek Ix P N0 Hc L8 Nu Q).
Qed.
Print Assumptions C68_at_rest.

(** The application's requests through the mesh (mesh.go:62-75) go by name as well; it gets nil for a name exactly if no module exports it. *)
Theorem C68_application : forall G (ks : list (package G)) is m, Forall sound ks -> booted ks is -> load_all (map i_ops is) = Ret m ->
  (forall x, mesh_request m x = None <-> forall j kd f, ~ exports ks j kd x f) /\
  forall r, relay_reach m (guest_handlers ks) (length ks) r -> forall x d md md', plain ks x -> mesh_request m x = Some d -> wf md -> 8 <= len md -> redirect d (Some md) = Ret (Some md') ->
  forall st c o, nth_error (y_nets r) (d_inst d) = Some st -> In c (p_calls (n_peer st Server)) -> c_md c = md' -> CallSpec.results c = [o] ->
  exists g y, exports ks (d_inst d) RR x (Some g) /\ In y (p_runs (n_peer st Client)) /\ r_handler y = inr g /\ r_data y = c_data c /\ r_md y = skipn 8 md /\ r_out y = Some o.
Proof.
  intros G ks is m S B E. rewrite (booted_tables ks is S B) in E. split.
  - intro x. destruct (requests_proof _ (tables_ok ks S)) as (m' & E' & Rq). assert (m' = m) by congruence. subst m'. rewrite Rq, last_none. split.
    + intros No j kd f (k & Ek & X). destruct (In_nth_error _ _ X) as [q Eq]. apply (No (mkDest j (N.of_nat q))). apply (all_exports_in ks x _ S). exists k, kd, f. cbn [d_inst d_index]. rewrite Nat2N.id. split; assumption.
    + intros No d X. apply (all_exports_in ks x d S) in X as (k & kd & f & Ek & X). apply (No (d_inst d) kd f). exists k. split; [exact Ek|exact (nth_error_In _ _ X)].
  - intros r R x d md md' P Md Wf L8 Rd st c o N0 Hc Cm Rc. exact (asked ks m r x d md md' st c o S E R P Md Wf L8 Rd N0 Hc Cm Rc).
Qed.
Print Assumptions C68_application.

(** With generated code on both sides the user of a client sees the result or the error of a service registered under the imported name, called with the user's arguments. *)
Theorem C68_service : forall G f64to32 pt text (svc : G -> service) (ks : list (package G)) is m, Forall sound ks -> booted ks is -> load_all (map i_ops is) = Ret m ->
  forall r, served_reach f64to32 pt text svc m (guest_handlers ks) (length ks) r ->
  forall i k x, nth_error ks i = Some k -> In x (imported RR (k_calls k)) -> plain ks x ->
  forall st c sc e kd, nth_error (y_nets r) i = Some st -> In c (p_calls (n_peer st Client)) -> stub_call sc (index_of (k_calls k) RR x) e = Ret (c_data c, c_md c) ->
  callable sc e -> (forall j g, exports ks j RR x (Some g) -> NoDup (map fst (sv_schema (svc g))) /\ readable sc e (sv_schema (svc g)) /\ returns (svc g) kd) ->
  user_sees f64to32 pt text kd c = [] \/
  ((forall j kd f, ~ exports ks j kd x f) /\ user_sees f64to32 pt text kd c = [inr not_found]) \/
  exists j g sid v, exports ks j RR x (Some g) /\ outcome_of (sv_body (svc g) sid (seen sc e (svc g))) = Some v /\ user_sees f64to32 pt text kd c = [v].
Proof.
  intros G f64to32 pt text svc ks is m S B E r R i k x Ek Ix P st c sc e kd N0 Hc Sc C Sv. rewrite (booted_tables ks is S B) in E.
  destruct (C65_outcome G m (guest_handlers ks) _ (mesh_sound ks m S E) r (proj1 (served_runs f64to32 pt text svc _ _ _ _ R)) i st c N0 Hc) as [Q|(o & Q & _)]; [left; unfold user_sees; rewrite Q; reflexivity|right].
  exact (named_service f64to32 pt text svc ks m r i k x st c o sc e kd S E R Ek Ix P N0 Hc Sc Q C Sv).
Qed.
Print Assumptions C68_service.

(** ** An execution *)
(** The first module imports [1].[2], [9].[9] and [1].[3]; the second exports [1].[3] and [1].[2], with an import of its own in between. *)
Definition n_place : placing := mkPlacing 64 128 200 [] (repeat 5 300).
Definition n_mods : list (package N) :=
  [mkPackage [IImport RR [1] [2]; IImport RR [9] [9]; IImport RR [1] [2]; IImport RR [1] [3]] n_place; mkPackage [IExport RR [1] [3] (Some 1); IImport RR [5] [5]; IExport RR [1] [2] (Some 0)] n_place].
Lemma n_sound : Forall sound n_mods.
Proof.
  apply Forall_cons; [|apply Forall_cons; [|apply Forall_nil]]; (split; [reflexivity|]; split; [|split; [reflexivity|vm_compute; discriminate]]);
  unfold names_ok; cbn [k_calls]; repeat (apply Forall_cons; [repeat split; try (apply Forall_cons; [reflexivity|apply Forall_nil]); vm_compute; discriminate|]); apply Forall_nil.
Qed.
Definition n_insts : list instance := flat_map (fun k => match NewInstance (built k) with Done i => [i] | _ => [] end) n_mods.
Definition n_mesh : mesh := match load_all (map i_ops n_insts) with Ret m => m | _ => new_mesh end.
Lemma n_booted : booted n_mods n_insts /\ load_all (map i_ops n_insts) = Ret n_mesh.
Proof.
  split; [|vm_compute; reflexivity]. unfold booted. let v := eval vm_compute in n_insts in replace n_insts with v by (vm_cast_no_check (eq_refl v)).
  apply Forall2_cons; [vm_compute; reflexivity|]. apply Forall2_cons; [vm_compute; reflexivity|]. apply Forall2_nil.
Qed.
Lemma n_plain : plain n_mods ([1], [2]) /\ plain n_mods ([1], [3]) /\ plain n_mods ([9], [9]).
Proof.
  assert (P : forall x, plain n_mods x).
  { intros x j kd f (k & Ek & X). destruct j as [|[|j]]; cbn in Ek; [injection Ek as <-|injection Ek as <-|destruct j; discriminate Ek]; destruct kd; cbn in X; try contradiction;
    repeat (destruct X as [X|X]; [injection X as _ <-; split; [reflexivity|discriminate]|]); contradiction. }
  auto.
Qed.
Definition n_answer (r : relay N) (mv : rmove) : option rmove :=
  match mv with
  | RNet i (MConclude Client n _) =>
    match nth_error (y_nets r) i with
    | Some st =>
      match nth_error (p_runs (n_peer st Client)) n with
      | Some y => match r_handler y with
                  | inr g => match wrapper_answers no_round no_parse ex_text (ex_services g) (r_sid y) (r_data y) with [o] => Some (RNet i (MConclude Client n o)) | _ => None end
                  | inl _ => None
                  end
      | None => None
      end
    | None => None
    end
  | _ => Some mv
  end.
Fixpoint n_moves (r : relay N) (ms : list rmove) : option (relay N) :=
  match ms with
  | [] => Some r
  | mv :: ms' => match n_answer r mv with
                 | Some mv => if ok_relay r mv then match do_relay n_mesh (guest_handlers n_mods) r mv with Some r' => n_moves r' ms' | None => None end else None
                 | None => None
                 end
  end.
Lemma n_moves_reach : forall ms r r', served_reach no_round no_parse ex_text ex_services n_mesh (guest_handlers n_mods) 2 r -> n_moves r ms = Some r' -> served_reach no_round no_parse ex_text ex_services n_mesh (guest_handlers n_mods) 2 r'.
Proof.
  induction ms as [|m0 ms IH]; intros r r' R E; cbn [n_moves] in E; [congruence|]. destruct (n_answer r m0) as [mv|] eqn:A; [|discriminate E]. destruct (ok_relay r mv) eqn:O; [|discriminate E].
  destruct (do_relay n_mesh (guest_handlers n_mods) r mv) as [x|] eqn:D; [|discriminate E]. apply (IH x r'); [|exact E]. apply (v_move _ _ _ _ _ _ _ r mv x R); [exact (ok_relay_allowed _ _ _ O)| |exact D].
  clear - A. destruct mv as [i [s data md|s k|s|s q|[|] q o]|i j|q]; try exact Logic.I. intros st y g N0 E Hh. destruct m0 as [i0 [s data md|s k|s|s q0|[|] q0 o0]|i0 j|q0]; cbn [n_answer] in A; try discriminate A.
  destruct (nth_error (y_nets r) i0) as [st0|] eqn:N1; [|discriminate A]. destruct (nth_error (p_runs (n_peer st0 Client)) q0) as [y0|] eqn:E1; [|discriminate A]. destruct (r_handler y0) as [|g0] eqn:H0; [discriminate A|].
  destruct (wrapper_answers no_round no_parse ex_text (ex_services g0) (r_sid y0) (r_data y0)) as [|o1 [|]] eqn:W; try discriminate A. injection A as -> -> ->.
  assert (st0 = st) by congruence. subst st0. assert (y0 = y) by congruence. subst y0. assert (g0 = g) by congruence. subst g0. exact W.
Qed.
Definition n_call (x : info) (sc : schema) (e : env) : rmove :=
  match stub_call sc (index_of (k_calls (nth 0 n_mods (mkPackage [] n_place))) RR x) e with Ret (data, md) => RNet 0 (MCall Client data md) | _ => RBack 0 end.
Definition n_run : list rmove :=
  [n_call ([1], [2]) ex_args_schema ex_args; n_call ([9], [9]) [] ex_args; n_call ([1], [3]) [] ex_args; RNet 0 (MSubscribe Client 0); RNet 0 (MSubscribe Client 1); RNet 0 (MSubscribe Client 2);
   RNet 0 (MReceive Server); RNet 0 (MReceive Server); RNet 0 (MReceive Server); RForward 0 2; RForward 0 0; RNet 0 (MTask Server 0); RNet 1 (MReceive Client); RNet 1 (MReceive Client); RNet 1 (MTask Client 1); RNet 1 (MTask Client 0);
   RNet 1 (MConclude Client 0 (inr [])); RNet 1 (MConclude Client 1 (inr [])); RNet 1 (MReceive Server); RNet 1 (MReceive Server); RBack 0; RBack 1; RNet 0 (MReceive Client); RNet 0 (MReceive Client); RNet 0 (MReceive Client)].
Example C68_ex : exists r, served_reach no_round no_parse ex_text ex_services n_mesh (guest_handlers n_mods) 2 r /\ relay_rest r /\
  map (fun st => map (user_sees no_round no_parse ex_text KStr) (p_calls (n_peer st Client))) (y_nets r) = [[[inl (VResult (SStr [70; 32; 76; 76]))]; [inr not_found]; [inr [70; 2]]]; []].
Proof.
  let v := eval vm_compute in (n_moves (relay_create 2) n_run) in
  match v with Some ?r => exists r; split; [apply (n_moves_reach n_run (relay_create 2) r (v_init _ _ _ _ _ _ _)); vm_cast_no_check (eq_refl v)|] end. split.
  - apply Forall_cons; [|apply Forall_cons; [|constructor]]; intros [|]; vm_compute; (split; [reflexivity|]; split; [reflexivity|]); repeat constructor; discriminate.
  - vm_compute. reflexivity.
Qed.
