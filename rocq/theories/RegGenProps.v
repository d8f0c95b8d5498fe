(** C90: the registrations that the code generator writes, and calls between modules made with it. *)
From Coq Require Import List NArith ZArith Lia Bool.
From Verif Require Import Base BaseLemmas OperationsModel OperationsSpec InvokeModel InvokeSpec InvokeProofs BootModel MonoModel ProxyModel StreamIdModel MeshModel CallModel CallSpec DispatchModel DispatchSpec RelayModel RelaySpec RelayProps NamesModel NamesSpec NamesProps.
From Verif Require Import MeshSpec MeshProofs RelayProofs NamesProofs.
From Verif Require FluxModel FluxSpec StreamModel StreamSpec StreamProofs RelayStreamModel RelayStreamSpec RelayStreamProps.
From Verif Require Import MsgpackModel MsgpackSpec GenModel GenSpec GenProps OpGenModel OpGenSpec OpGenProps RegGenModel RegGenSpec RegGenProofs.
Import ListNotations.
Open Scope N_scope.

(** The style in which an invoker calls and an import is made, that in which an export is made and that of the wrapper are one, and the right one. *)
Theorem C90_style : forall x k, (parts_type x = k <-> crosses x k) /\ (register_style x = k <-> crosses x k) /\ (wrapper_style x = k <-> crosses x k).
Proof. intros x k. destruct (styles_agree x) as [A B]. rewrite A, B. pose proof (style x k). tauto. Qed.
Print Assumptions C90_style.
Example C90_style_case : crosses opx RC /\ crosses (mkOp (Args 7 []) (RMany None)) RS /\ crosses (mkOp (Unary (TyPrim NString)) RVoid) RR.
Proof. split; [|split]; apply C90_style; reflexivity. Qed.

(** A generated module exports exactly the operations of its services that have code, under "namespace.interface" and the operation's name, each with the user's
    method for it. *)
Theorem C90_registers : forall G (impl : bytes -> bytes -> G) s k q o f, In ((q, o), f) (exported k (registrations impl s)) <->
  exists i x, handles s i o x /\ crosses x k /\ q = s_name s ++ 46 :: i /\ f = Some (impl i o).
Proof. intros. apply registered. Qed.
Print Assumptions C90_registers.

(** It imports exactly the functions that others provide and the operations of the providers that its services use. *)
Theorem C90_imports : forall G (impl : bytes -> bytes -> G) s k q o, In (q, o) (imported k (registrations impl s)) <->
  exists x, crosses x k /\ ((q = s_name s /\ calls_function s o x) \/ exists i, needs s i o x /\ q = s_name s ++ 46 :: i).
Proof. intros. apply asked_for. Qed.
Print Assumptions C90_imports.

(** A service [83] that uses the provider [80]; both in the namespace [97] ("a").  The service has an operation without code. *)
Definition ask_op : op := mkOp (Unary (TyPrim NString)) (ROne (TyPrim NU16)).
Definition items_op : op := mkOp (Args 8 []) (RMany (Some (TyPrim NU16))).
Definition providerx : interface := mkInterface [80] Provider [] [mkOperation [103] false ask_op; mkOperation [104] false opx; mkOperation [115] false items_op].
Definition spacex : namespace := mkNamespace [97] [(Provider, mkOperation [102] false ask_op); (Service, mkOperation [101] false ask_op)]
  [mkInterface [83] Service [[80]; [80]] [mkOperation [120] false (mkOp (Args 3 []) RVoid); mkOperation [121] true ask_op]; mkInterface [69] Events [] [mkOperation [122] false ask_op]; providerx].
Example C90_registers_case : handles spacex [83] [120] (mkOp (Args 3 []) RVoid) /\
  registrations (fun i o => i ++ o) spacex = [IImport RR [97] [102]; IImport RR [97; 46; 80] [103]; IImport RC [97; 46; 80] [104]; IImport RS [97; 46; 80] [115]; IExport RR [97; 46; 83] [120] (Some [83; 120])].
Proof. split; [|vm_compute; reflexivity]. eexists. eexists. split; [left; reflexivity|]. repeat split. left. reflexivity. Qed.
Example C90_imports_case : needs spacex [80] [104] opx /\ calls_function spacex [102] ask_op.
Proof.
  split; [|eexists; left; reflexivity]. eexists. eexists. eexists. split; [left; reflexivity|]. split; [reflexivity|]. split; [left; reflexivity|]. split; [right; right; left; reflexivity|].
  split; [reflexivity|]. split; [reflexivity|]. right. left. reflexivity.
Qed.

(** Different operations of interfaces have different names, provided the names of the interfaces have no dots (those of the namespaces may). *)
Theorem C90_names : forall ns i (o : bytes) ns' i' o', ~ In 46 i -> ~ In 46 i' -> (qualified ns i, o) = (qualified ns' i', o') -> ns = ns' /\ i = i' /\ o = o'.
Proof. intros ns i o ns' i' o' H H' E. injection E as E ->. destruct (qualified_inj i i' ns ns' H H' E) as [-> ->]. repeat split. Qed.
Print Assumptions C90_names.
Example C90_names_case : ~ In 46 (f_name providerx) /\ qualified [97] [80] = [97; 46; 80].
Proof. split; [|reflexivity]. intros [E|[]]. discriminate E. Qed.

(** But a function and an operation of an interface can have the same name: the function [f] provided to the namespace "a.P" and the operation [f] of the service "P" in
    "a".  And there are handlers that are never registered: those of events, and functions. *)
Definition space_f : namespace := mkNamespace [97; 46; 80] [(Provider, mkOperation [102] false ask_op)] [].
Definition space_p : namespace := mkNamespace [97] [] [mkInterface [80] Service [] [mkOperation [102] false ask_op]].
Theorem C90_names_refuted : forall G (impl : bytes -> bytes -> G),
  (exists x, In x (imported RR (registrations impl space_f)) /\ In (x, Some (impl [80] [102])) (exported RR (registrations impl space_p)))
  /\ (exists s i o, In i (s_interfaces s) /\ isHandler (f_role i) = true /\ In o (f_ops i) /\ n_nocode o = false /\ Register impl (s_name s) i <> [] /\ forall k, exported k (registrations impl s) = [])
  /\ (exists s r o, In (r, o) (s_functions s) /\ isHandler r = true /\ forall k, exported k (registrations impl s) = []).
Proof.
  intros G impl. split; [|split].
  - exists ([97; 46; 80], [102]). split; left; reflexivity.
  - exists (mkNamespace [97] [] [mkInterface [69] Events [] [mkOperation [122] false ask_op]]), (mkInterface [69] Events [] [mkOperation [122] false ask_op]), (mkOperation [122] false ask_op).
    split; [left; reflexivity|]. split; [reflexivity|]. split; [left; reflexivity|]. split; [reflexivity|]. split; [discriminate|]. intros []; reflexivity.
  - exists (mkNamespace [97] [(Service, mkOperation [101] false ask_op)] []), Service, (mkOperation [101] false ask_op). split; [left; reflexivity|]. split; [reflexivity|]. intros []; reflexivity.
Qed.
Print Assumptions C90_names_refuted.
Example C90_names_refuted_case : undotted space_p /\ undotted space_f.
Proof. split; intros f I; [destruct I as [<-|[]]; intros [E|[]]; discriminate E|destruct I]. Qed.

(** A call of an operation of a provider is answered by a program whose service of that name has the operation, with the user's method for it and the caller's data; or
    refused, if there is no such program.  [c] is a call that the invoker makes with the number that the import returned; the programs that have the operation declare it
    as one with a single answer. *)
Theorem C90_call : forall G (ps : list (program G)) (ks : list (package G)) is m, Forall sound ks -> Forall2 made ks ps -> Forall (fun p => undotted (g_space p)) ps ->
  booted ks is -> load_all (map i_ops is) = Ret m ->
  forall r, relay_reach m (guest_handlers ks) (length ks) r ->
  forall n k p i o x, nth_error ks n = Some k -> nth_error ps n = Some p -> needs (g_space p) i o x -> crosses x RR ->
  (forall j x' g, handled ps j (s_name (g_space p)) i o x' g -> crosses x' RR) ->
  forall st c, nth_error (y_nets r) n = Some st -> In c (p_calls (n_peer st Client)) -> 8 <= len (c_md c) ->
  number4 (c_md c) = index_of (k_calls k) RR (qualified (s_name (g_space p)) i, o) ->
  CallSpec.results c = [] \/ exists out, CallSpec.results c = [out] /\ answered_by ps r (s_name (g_space p)) i o c out.
Proof.
  intros G ps ks is m S M U B E r R n k p i o x Ek Ep Nd X Agree st c N0 Hc L8 Nu.
  destruct (meets RR ks ps n k p i o x M U Ek Ep Nd X Agree) as (Ix & W & P). specialize (P eq_refl). set (ns := s_name (g_space p)) in *.
  destruct (C68_call G ks is m S B E r R n k (qualified ns i, o) Ek Ix P st c N0 Hc L8 Nu) as [Q|(out & Q & A)]; [left; exact Q|right]. exists out. split; [exact Q|].
  destruct A as [[No ->]|(j & g & st' & y & H & A)]; [left|right].
  - split; [|reflexivity]. intros j x' g H. apply (No j RR (Some g)). apply (exports_handled ks ps M). exists ns, i, x', g. split; [exact H|]. split; [exact (Agree j x' g H)|]. split; reflexivity.
  - apply W in H as (x' & g' & H & _ & Eg). injection Eg as <-. exists j, x', g, st', y. split; [exact H|exact A].
Qed.
Print Assumptions C90_call.

(** When nothing is under way, every such call that was subscribed to has been answered so. *)
Theorem C90_at_rest : forall G (ps : list (program G)) (ks : list (package G)) is m, Forall sound ks -> Forall2 made ks ps -> Forall (fun p => undotted (g_space p)) ps ->
  booted ks is -> load_all (map i_ops is) = Ret m ->
  forall r, relay_reach m (guest_handlers ks) (length ks) r -> relay_rest r ->
  forall n k p i o x, nth_error ks n = Some k -> nth_error ps n = Some p -> needs (g_space p) i o x -> crosses x RR ->
  (forall j x' g, handled ps j (s_name (g_space p)) i o x' g -> crosses x' RR) ->
  forall st c, nth_error (y_nets r) n = Some st -> In c (p_calls (n_peer st Client)) -> c_subscribed c = true -> 8 <= len (c_md c) ->
  number4 (c_md c) = index_of (k_calls k) RR (qualified (s_name (g_space p)) i, o) ->
  exists out, CallSpec.results c = [out] /\ answered_by ps r (s_name (g_space p)) i o c out.
Proof.
  intros G ps ks is m S M U B E r R Z n k p i o x Ek Ep Nd X Agree st c N0 Hc Sb L8 Nu.
  destruct (meets RR ks ps n k p i o x M U Ek Ep Nd X Agree) as (Ix & _ & P). specialize (P eq_refl).
  destruct (C68_at_rest G ks is m S B E r R Z n k _ Ek Ix P st c N0 Hc Sb L8 Nu) as (out & Q & _).
  destruct (C90_call G ps ks is m S M U B E r R n k p i o x Ek Ep Nd X Agree st c N0 Hc L8 Nu) as [Q'|A]; [rewrite Q in Q'; discriminate Q'|exact A].
Qed.
Print Assumptions C90_at_rest.

(** The table through which the calls of an operation of any style go links it to the user's method of a program that handles it, and to nothing only if there is none. *)
Theorem C90_linked : forall G (ps : list (program G)) (ks : list (package G)) is m, Forall sound ks -> Forall2 made ks ps -> Forall (fun p => undotted (g_space p)) ps ->
  booted ks is -> load_all (map i_ops is) = Ret m ->
  forall n k p i o x kd, nth_error ks n = Some k -> nth_error ps n = Some p -> needs (g_space p) i o x -> crosses x kd ->
  (forall j x' g, handled ps j (s_name (g_space p)) i o x' g -> crosses x' kd) ->
  exists d, linked m n kd (index_of (k_calls k) kd (qualified (s_name (g_space p)) i, o)) = Ret d /\
  match d with
  | Some d => exists x' g, handled ps (d_inst d) (s_name (g_space p)) i o x' g /\ nth_error (guest_handlers ks (d_inst d) kd) (N.to_nat (d_index d)) = Some (Some g)
  | None => forall j x' g, ~ handled ps j (s_name (g_space p)) i o x' g
  end.
Proof.
  intros G ps ks is m S M U B E n k p i o x kd Ek Ep Nd X Agree. destruct (meets kd ks ps n k p i o x M U Ek Ep Nd X Agree) as (Ix & W & _). set (ns := s_name (g_space p)) in *.
  rewrite (booted_tables ks is S B) in E. assert (T := tables_ok ks S). set (ts := map (fun k => operation_list (irun (k_calls k))) ks) in *.
  assert (Fw : InvokeSpec.few (k_calls k)) by (rewrite Forall_forall in S; apply (S k (nth_error_In _ _ Ek))).
  assert (Io := proj2 (advertised_imports_proof (k_calls k) kd _ (qualified ns i) o Fw) (conj Ix eq_refl)). assert (Et : nth_error ts n = Some (operation_list (irun (k_calls k)))) by (unfold ts; exact (map_nth_error _ _ _ Ek)).
  destruct (complete_proof ts n _ _ kd T Et Io eq_refl eq_refl) as (m' & d & E' & Lk & C1 & C2). assert (m' = m) by congruence. subst m'. cbn [op_index op_ns op_name] in *. exists d. split; [exact Lk|]. destruct d as [d|].
  - specialize (C1 d eq_refl). apply (all_exports_in ks (qualified ns i, o) d S) in C1 as (k' & kd' & f & Ej & Y).
    destruct (W (d_inst d) kd' f) as (x' & g & H & -> & ->); [exists k'; split; [exact Ej|exact (nth_error_In _ _ Y)]|]. exists x', g. split; [exact H|].
    rewrite guest_handlers_eq, Ej, nth_error_map. unfold info in *. rewrite Y. reflexivity.
  - intros j x' g H. assert (Xp : exports ks j kd (qualified ns i, o) (Some g)) by (apply (exports_handled ks ps M); exists ns, i, x', g; split; [exact H|]; split; [exact (Agree j x' g H)|]; split; reflexivity).
    destruct Xp as (k' & Ej & Y). destruct (In_nth_error _ _ Y) as [q Eq]. apply (C2 eq_refl (mkDest j (N.of_nat q))). apply (all_exports_in ks (qualified ns i, o) _ S). exists k', kd, (Some g). cbn [d_inst d_index]. rewrite Nat2N.id. split; assumption.
Qed.
Print Assumptions C90_linked.

(** So the caller of a streaming operation sees, in order, what the user's method of such a program emits (C73), unless none has the operation. *)
Theorem C90_stream : forall G (ps : list (program G)) (ks : list (package G)) is m, Forall sound ks -> Forall2 made ks ps -> Forall (fun p => undotted (g_space p)) ps ->
  booted ks is -> load_all (map i_ops is) = Ret m ->
  forall n k p i o x, nth_error ks n = Some k -> nth_error ps n = Some p -> needs (g_space p) i o x -> crosses x RS ->
  (forall j x' g, handled ps j (s_name (g_space p)) i o x' g -> crosses x' RS) ->
  forall data md, CallSpec.sendable data md -> 8 <= len md -> number4 md = index_of (k_calls k) RS (qualified (s_name (g_space p)) i, o) ->
  (forall j x' g, ~ handled ps j (s_name (g_space p)) i o x' g) \/
  exists d x' h, handled ps (d_inst d) (s_name (g_space p)) i o x' h /\
  forall shost sguest g sid1 sid2 md2 z, sid1 < 2^31 -> sid2 < 2^31 -> redirect d (Some md) = Ret (Some md2) ->
  RelayStreamSpec.xreach m (guest_handlers ks) shost sguest n d g sid1 sid2 data md md2 z ->
  (exists y, FluxSpec.expected g (StreamSpec.emitted (RelayStreamModel.x_second z)) = StreamSpec.seen (RelayStreamModel.x_first z) ++ y) /\
  (RelayStreamSpec.x_rest z -> StreamSpec.undisturbed (RelayStreamModel.x_first z) -> StreamSpec.seen (RelayStreamModel.x_first z) = FluxSpec.expected g (StreamSpec.emitted (RelayStreamModel.x_second z))) /\
  Forall (fun r => fst r = (inr h, data, md2)) (StreamModel.c_runs (RelayStreamModel.x_second z)) /\ (length (StreamModel.c_runs (RelayStreamModel.x_second z)) <= 1)%nat.
Proof.
  intros G ps ks is m S M U B E n k p i o x Ek Ep Nd X Agree data md Sn L8 Nu.
  destruct (C90_linked G ps ks is m S M U B E n k p i o x RS Ek Ep Nd X Agree) as (d & Lk & D). rewrite (booted_tables ks is S B) in E. assert (Ok := mesh_sound ks m S E).
  rewrite (linked_nth _ m n RS _ (tables_ok ks S) E), <- Nu in Lk. destruct d as [d|]; [right|left; exact D]. destruct D as (x' & h & H & Hh). exists d, x', h. split; [exact H|].
  intros shost sguest g sid1 sid2 md2 z S1 S2 Rd R.
  assert (Ro : RelayStreamSpec.routed m (guest_handlers ks) n d md h).
  { split; [exact L8|]. split; [|exact Hh]. destruct (nth_error (m_tabs m n RS) (N.to_nat (number4 md))) as [[d'|]|]; congruence. }
  split; [exact (RelayStreamProps.C73_stream G m _ _ shost sguest n d g sid1 sid2 data md md2 h z Ok S1 S2 Sn Ro Rd R)|].
  split; [intros Re Un; exact (RelayStreamProps.C73_rest G m _ _ shost sguest n d g sid1 sid2 data md md2 h z Ok S1 S2 Sn Ro Rd R Re Un)|].
  destruct (RelayStreamProps.C73_handler G m _ _ shost sguest n d g sid1 sid2 data md md2 h z Ok S1 S2 Sn Ro Rd R) as (_ & A & A' & _). split; assumption.
Qed.
Print Assumptions C90_stream.

(** If in addition both sides compile for the operation, and the data is what the invoker writes for a value, the method that is run is given that value (with the
    differences of C87); and if its result is what the wrapper writes for a value, the caller gets that value. *)
Theorem C90_values : forall f64to32 pt fmt (C : Type) (parse : N -> scal -> option C) (format : N -> C -> scal) foreign types,
  (forall n d, types n = Some d -> def_ok foreign d) ->
  forall G (ps : list (program G)) (ks : list (package G)) is m, Forall sound ks -> Forall2 made ks ps -> Forall (fun p => undotted (g_space p)) ps ->
  booted ks is -> load_all (map i_ops is) = Ret m ->
  forall r, relay_reach m (guest_handlers ks) (length ks) r ->
  forall n k p i o x, nth_error ks n = Some k -> nth_error ps n = Some p -> needs (g_space p) i o x -> crosses x RR -> asks foreign x -> serves foreign x ->
  (forall j x' g, handled ps j (s_name (g_space p)) i o x' g -> x' = x) ->
  forall t v, carries types x t -> of_type parse format foreign types false t v ->
  exists e d calls most, client_request (o_in x) = Some e /\ server_request foreign (o_in x) = Some d /\ msgpackWrite format foreign types t false v = Some calls /\
  forall st c, nth_error (y_nets r) n = Some st -> In c (p_calls (n_peer st Client)) -> 8 <= len (c_md c) ->
  number4 (c_md c) = index_of (k_calls k) RR (qualified (s_name (g_space p)) i, o) ->
  len (calls_bytes calls) + calls_excess calls < 2^32 -> run_enc fmt format foreign types e v = Some (Ret (c_data c)) ->
  CallSpec.results c = [] \/
  ((forall j x g, ~ handled ps j (s_name (g_space p)) i o x g) /\ CallSpec.results c = [inr not_found]) \/
  exists j g st' y out, handled ps j (s_name (g_space p)) i o x g /\ nth_error (y_nets r) j = Some st' /\ In y (p_runs (n_peer st' Client)) /\ r_handler y = inr g /\
    (forall fuel, (most <= fuel)%nat -> run_dec f64to32 pt parse foreign types fuel d (r_data y) = match back foreign types false t v with Some w => Ret w | None => Panic end) /\
    r_out y = Some out /\ CallSpec.results c = [out].
Proof.
  intros f64to32 pt fmt C parse format foreign types K G ps ks is m S M U B E r R n k p i o x Ek Ep Nd X As Se Agree t v Ca T.
  assert (Go : goes f64to32 pt fmt parse format foreign types (client_request (o_in x)) (server_request foreign (o_in x)) t v).
  { pose proof (C89_request f64to32 pt fmt C parse format foreign types K x As Se) as Q. unfold carries in Ca. destruct (o_in x) as [u|a l]; [subst u; exact (Q v T)|].
    destruct Ca as (-> & Ne & Ty). specialize (Q Ty). destruct (plain_params l) eqn:Pl; [destruct (Ne eq_refl)|]. exact (Q v T). }
  destruct Go as (e & d & calls & most & Ee & Ed & Ew & _ & Go). exists e, d, calls, most. split; [exact Ee|]. split; [exact Ed|]. split; [exact Ew|].
  intros st c N0 Hc L8 Nu Sz En. destruct (Go Sz) as (data & En' & Dec). rewrite En in En'. injection En' as En'. subst data.
  destruct (C90_call G ps ks is m S M U B E r R n k p i o x Ek Ep Nd X (fun j x' g H => eq_ind_r (fun x' => crosses x' RR) X (Agree j x' g H)) st c N0 Hc L8 Nu) as [Q|(out & Q & [[No ->]|A])]; [left; exact Q|right; left; split; assumption|].
  right. right. destruct A as (j & x' & g & st' & y & H & N1 & Iy & Hy & Dy & _ & Oy). pose proof (Agree j x' g H). subst x'. exists j, g, st', y, out. split; [exact H|]. split; [exact N1|]. split; [exact Iy|]. split; [exact Hy|].
  split; [intros fuel L; rewrite Dy; exact (Dec fuel L)|]. split; [exact Oy|exact Q].
Qed.
Print Assumptions C90_values.

(** ** An execution *)
(** The first module has a service that uses the provider "P"; the second has the service "P", with the same operations.  The first calls [103] with the text "Hi"; the
    answer is the number 300. *)
Definition space1 : namespace := mkNamespace [97] [] [mkInterface [83] Service [[80]] [mkOperation [120] false (mkOp (Args 3 []) RVoid)]; providerx].
Definition space2 : namespace := mkNamespace [97] [] [mkInterface [80] Service [] (f_ops providerx)].
Definition g_programs : list (program bytes) := [mkProgram space1 (fun i o => 1 :: i ++ o); mkProgram space2 (fun i o => 2 :: i ++ o)].
Definition g_mods : list (package bytes) := map (fun p => mkPackage (registrations (g_impl p) (g_space p)) n_place) g_programs.
Lemma g_sound : Forall sound g_mods.
Proof.
  apply Forall_cons; [|apply Forall_cons; [|apply Forall_nil]]; (split; [reflexivity|]; split; [|split; [reflexivity|vm_compute; discriminate]]);
  unfold names_ok; match goal with |- Forall _ ?l => let v := eval vm_compute in l in change l with v end;
  repeat (apply Forall_cons; [repeat split; try (repeat (apply Forall_cons; [reflexivity|]); apply Forall_nil); vm_compute; discriminate|]); apply Forall_nil.
Qed.
Lemma g_made : Forall2 made g_mods g_programs.
Proof. repeat (apply Forall2_cons; [reflexivity|]). apply Forall2_nil. Qed.
Lemma g_undotted : Forall (fun p => undotted (g_space p)) g_programs.
Proof.
  repeat apply Forall_cons; try apply Forall_nil; intros f I; cbn in I; repeat (destruct I as [<-|I]; [intros [Q|[]]; discriminate Q|]); contradiction.
Qed.
Definition g_insts : list instance := flat_map (fun k => match NewInstance (built k) with Done i => [i] | _ => [] end) g_mods.
Definition g_mesh : mesh := match load_all (map i_ops g_insts) with Ret m => m | _ => new_mesh end.
Lemma g_booted : booted g_mods g_insts /\ load_all (map i_ops g_insts) = Ret g_mesh.
Proof.
  split; [|vm_compute; reflexivity]. unfold booted. let v := eval vm_compute in g_insts in replace g_insts with v by (vm_cast_no_check (eq_refl v)).
  apply Forall2_cons; [vm_compute; reflexivity|]. apply Forall2_cons; [vm_compute; reflexivity|]. apply Forall2_nil.
Qed.
Definition g_metadata : bytes := be 4 (index_of (k_calls (nth 0 g_mods (mkPackage [] n_place))) RR (qualified [97] [80], [103])) ++ [0; 0; 0; 0].
Definition g_run : list rmove :=
  [RNet 0 (MCall Client [162; 72; 105] g_metadata); RNet 0 (MSubscribe Client 0); RNet 0 (MReceive Server); RForward 0 0; RNet 1 (MReceive Client); RNet 1 (MTask Client 0);
   RNet 1 (MConclude Client 0 (inl ([205; 1; 44], []))); RNet 1 (MReceive Server); RBack 0; RNet 0 (MReceive Client)].
Lemma g_agree : forall j x g, handled g_programs j [97] [80] [103] x g -> x = ask_op.
Proof.
  intros j x g (p & E & _ & (f & d & I & R & Nm & J & ->) & _). destruct j as [|[|j]]; cbn in E; [injection E as <-|injection E as <-|destruct j; discriminate E]; cbn in I.
  - destruct I as [<-|[<-|[]]]; [discriminate Nm|discriminate R].
  - destruct I as [<-|[]]. cbn in J. destruct J as [J|[J|[J|[]]]]; [injection J as ->; reflexivity|discriminate J|discriminate J].
Qed.
Example C90_call_case : exists r, relay_reach g_mesh (guest_handlers g_mods) 2 r /\ relay_rest r /\ needs space1 [80] [103] ask_op /\ crosses ask_op RR /\
  map (fun st => map CallSpec.results (p_calls (n_peer st Client))) (y_nets r) = [[[inl ([205; 1; 44], [])]]; []] /\
  map (fun st => map (fun y => (r_handler y, r_data y)) (p_runs (n_peer st Client))) (y_nets r) = [[]; [(inr [2; 80; 103], [162; 72; 105])]].
Proof.
  let v := eval vm_compute in (ok_relays g_mesh (guest_handlers g_mods) (relay_create 2) g_run) in
  match v with Some ?r => exists r; split; [apply (ok_relays_reach bytes g_mesh (guest_handlers g_mods) 2 g_run (relay_create 2) r (y_init _ _ _)); vm_cast_no_check (eq_refl v)|] end.
  split; [apply Forall_cons; [|apply Forall_cons; [|constructor]]; intros [|]; vm_compute; (split; [reflexivity|]; split; [reflexivity|]); repeat constructor; discriminate|].
  split; [|split; [apply C90_style; reflexivity|split; vm_compute; reflexivity]].
  eexists. eexists. eexists. split; [left; reflexivity|]. split; [reflexivity|]. split; [left; reflexivity|]. split; [right; left; reflexivity|]. split; [reflexivity|]. split; [reflexivity|]. left. reflexivity.
Qed.
(** The call of the execution is subscribed to and at rest. *)
Example C90_at_rest_case : (exists r, relay_reach g_mesh (guest_handlers g_mods) 2 r /\ relay_rest r) /\ (forall j x g, handled g_programs j [97] [80] [103] x g -> crosses x RR).
Proof. split; [destruct C90_call_case as (r & R & Z & _); exists r; split; assumption|]. intros j x g H. rewrite (g_agree j x g H). apply C90_style. reflexivity. Qed.
Example C90_values_case : forall f64to32 pt fmt, asks importedx ask_op /\ serves importedx ask_op /\ carries typesx ask_op (TyPrim NString) /\
  run_enc fmt formatx importedx typesx (EToBytes KStr) (VScal (SStr [72; 105])) = Some (Ret [162; 72; 105]) /\
  run_dec f64to32 pt parsex importedx typesx 0 (DRead KStr) [162; 72; 105] = Ret (VScal (SStr [72; 105])).
Proof.
  intros f64to32 pt fmt. split; [apply C89_invoker; vm_compute; reflexivity|]. split; [apply C89_wrapper; vm_compute; reflexivity|]. split; [reflexivity|]. split; vm_compute; reflexivity.
Qed.
Example C90_linked_case : linked g_mesh 0 RR 0 = Ret (Some (mkDest 1 0)) /\ linked g_mesh 0 RC 0 = Ret (Some (mkDest 1 0)) /\ linked g_mesh 0 RS 0 = Ret (Some (mkDest 1 0)) /\
  index_of (k_calls (nth 0 g_mods (mkPackage [] n_place))) RC (qualified [97] [80], [104]) = 0 /\ guest_handlers g_mods 1 RC = [Some [2; 80; 104]] /\
  needs space1 [80] [104] opx /\ crosses opx RC.
Proof.
  do 5 (split; [vm_compute; reflexivity|]). split; [|apply C90_style; reflexivity].
  eexists. eexists. eexists. split; [left; reflexivity|]. split; [reflexivity|]. split; [left; reflexivity|]. split; [right; left; reflexivity|]. split; [reflexivity|]. split; [reflexivity|]. right. left. reflexivity.
Qed.
(** A call of [115], with one item and its end. *)
Definition g_md : bytes := [0; 0; 0; 0; 0; 0; 0; 9].
Definition g_allowedb (x : RelayStreamModel.duo bytes) (mv : RelayStreamModel.xmove) : bool :=
  match mv with RelayStreamModel.XFirst mv => StreamProofs.allowedb 5 (RelayStreamModel.x_first x) mv | RelayStreamModel.XSecond mv => StreamProofs.allowedb 4 (RelayStreamModel.x_second x) mv | _ => true end.
Fixpoint g_runs (x : RelayStreamModel.duo bytes) (ms : list RelayStreamModel.xmove) : option (RelayStreamModel.duo bytes) :=
  match ms with
  | [] => Some x
  | mv :: ms' => if g_allowedb x mv then match RelayStreamModel.do_x g_mesh (guest_handlers g_mods) false true 0 (mkDest 1 0) RelayStreamProps.ex_all 5 4 [] g_md g_md x mv with Some x' => g_runs x' ms' | None => None end else None
  end.
Lemma g_by : forall ms x x', RelayStreamSpec.xreach g_mesh (guest_handlers g_mods) false true 0 (mkDest 1 0) RelayStreamProps.ex_all 5 4 [] g_md g_md x -> g_runs x ms = Some x' ->
  RelayStreamSpec.xreach g_mesh (guest_handlers g_mods) false true 0 (mkDest 1 0) RelayStreamProps.ex_all 5 4 [] g_md g_md x'.
Proof.
  induction ms as [|mv ms IH]; intros x x' R X; [injection X as <-; exact R|]. cbn [g_runs] in X. destruct (g_allowedb x mv) eqn:A; [|discriminate X]. destruct (RelayStreamModel.do_x _ _ _ _ _ _ _ _ _ _ _ _ x mv) as [x1|] eqn:D; [|discriminate X].
  eapply IH; [|exact X]. eapply RelayStreamSpec.x_move; [exact R| |exact D]. destruct mv; cbn [RelayStreamSpec.xallowed g_allowedb] in *; try exact Logic.I; apply StreamProofs.allowedb_sound; exact A.
Qed.
Example C90_stream_case : needs space1 [80] [115] items_op /\ crosses items_op RS /\ CallSpec.sendable [] g_md /\ number4 g_md = index_of (k_calls (nth 0 g_mods (mkPackage [] n_place))) RS (qualified [97] [80], [115]) /\
  redirect (mkDest 1 0) (Some g_md) = Ret (Some g_md) /\ handled g_programs 1 [97] [80] [115] items_op [2; 80; 115] /\
  exists z, RelayStreamSpec.xreach g_mesh (guest_handlers g_mods) false true 0 (mkDest 1 0) RelayStreamProps.ex_all 5 4 [] g_md g_md z /\
  StreamSpec.seen (RelayStreamModel.x_first z) = [FluxModel.VNext ([10], [3]); FluxModel.VComplete] /\ map fst (StreamModel.c_runs (RelayStreamModel.x_second z)) = [(inr [2; 80; 115], [], g_md)].
Proof.
  split; [eexists; eexists; eexists; split; [left; reflexivity|]; split; [reflexivity|]; split; [left; reflexivity|]; split; [right; left; reflexivity|]; split; [reflexivity|]; split; [reflexivity|]; right; right; left; reflexivity|].
  split; [apply C90_style; reflexivity|]. split; [split; [repeat constructor|split; reflexivity]|]. split; [vm_compute; reflexivity|]. split; [vm_compute; reflexivity|]. split.
  - eexists. split; [reflexivity|]. split; [reflexivity|]. split; [|reflexivity]. eexists. eexists. split; [left; reflexivity|]. split; [reflexivity|]. split; [reflexivity|]. split; [right; right; left; reflexivity|reflexivity].
  - let ms := constr:(RelayStreamProps.ex_call ++ RelayStreamProps.ex_passed ++ RelayStreamProps.ex_started ++ RelayStreamProps.ex_item ++ RelayStreamProps.ex_end ++ RelayStreamProps.ex_back ++ RelayStreamProps.ex_ended) in
    let v := eval vm_compute in (g_runs (RelayStreamModel.duo_create 1 2 1) ms) in
    match v with Some ?c => exists c; split; [apply (g_by ms (RelayStreamModel.duo_create 1 2 1)); [apply RelayStreamSpec.x_init|vm_cast_no_check (eq_refl v)]|] end. split; vm_compute; reflexivity.
Qed.
