(** C91: the Go packages that generated files import. *)
From Coq Require Import List NArith Bool.
From Verif Require Import Base OperationsModel MsgpackModel GenModel GenSpec GenProps OpGenModel OpGenSpec OpGenProofs RegGenModel PkgGenModel PkgGenSpec PkgGenProofs.
Import ListNotations.
Open Scope N_scope.

(** export.go, when its wrappers compile one by one (C89), names what it imports and imports what it names exactly if: there is a wrapper in it; none of
    its operations takes a single primitive value (which is read with a package that is not imported); and what is imported for operations that get no
    wrapper is named for others. *)
Theorem C91_export : forall imported path s, (forall x, serving s x -> serves imported x) ->
  (agree (export_imports imported path s) (export_used imported path s) <->
   (exists x, serving s x) /\ (forall x, serving s x -> ~ one_primitive x) /\ forall p, leaves imported path s p -> exists y, serving s y /\ answers y p).
Proof. exact export_file. Qed.
Print Assumptions C91_export.

(** providers.go, when its invokers compile one by one: there are no providers; or there is an invoker that sends parameters, and the packages of operations
    without code (for which invokers are written all the same) are those of some with code; and not every provider has an operation without code. *)
Theorem C91_provider : forall imported path s, (forall x, asking s x -> asks imported x) ->
  (agree (provider_imports imported path s) (provider_used imported path s) <->
   (~ needs_any s /\ forall x, ~ asking s x)
   \/ (needs_any s /\ (exists x, asking s x /\ has_data x) /\ forall x p, asking s x -> about imported path x p -> exists y, asking_code s y /\ about imported path y p)).
Proof. exact provider_file. Qed.
Print Assumptions C91_provider.

(** The namespace of /repo/codegen/testdata/tinygo/apex.axdl: shorten(url): URL, lookup(id): URL without code; loadById, loadByURL, storeURL[url: URL]. *)
Definition text : ty := TyPrim NString.
Definition shortener : namespace := mkNamespace [117] [] [
  mkInterface [83] Service [[82]] [mkOperation [115] false (mkOp (Args 1 [([117], One false text)]) (ROne (TyType 9))); mkOperation [108] true (mkOp (Args 2 [([105], One false text)]) (ROne (TyType 9)))];
  mkInterface [82] Provider [] [mkOperation [105] false (mkOp (Args 3 [([105], One false text)]) (ROne (TyType 9))); mkOperation [117] false (mkOp (Args 4 [([117], One false text)]) (ROne (TyType 9)));
                                mkOperation [116] false (mkOp (Unary (TyType 9)) RVoid)]].
Example C91_export_case : forall path, (forall x, serving shortener x -> serves importedx x) /\ agree (export_imports importedx path shortener) (export_used importedx path shortener)
  /\ (exists x, serving shortener x) /\ exists x, unserved shortener x.
Proof.
  intros path. split; [|split; [|split]].
  - intros x H. apply wrapped_ops in H. apply wrapper. cbn in H. destruct H as [<-|[]]. vm_compute. reflexivity.
  - intros p. vm_compute. intuition congruence.
  - eexists. apply wrapped_ops. left. reflexivity.
  - eexists. right. exists Service. split; [|left; reflexivity]. exists [108]. eexists. split; [left; reflexivity|]. split; [reflexivity|]. right. left. reflexivity.
Qed.
Example C91_provider_case : forall path, (forall x, asking shortener x -> asks importedx x) /\ agree (provider_imports importedx path shortener) (provider_used importedx path shortener)
  /\ needs_any shortener /\ exists x, asking shortener x /\ has_data x.
Proof.
  intros path. split; [|split; [|split]].
  - intros x H. apply invoked_ops in H. apply invoker. cbn in H. destruct H as [<-|[<-|[<-|[]]]]; vm_compute; reflexivity.
  - intros p. vm_compute. intuition congruence.
  - apply has_any. reflexivity.
  - eexists. split; [apply invoked_ops; left; reflexivity|]. exists [105], false, text. left. reflexivity.
Qed.

(** The same when all operations of handlers have code and no function is provided. *)
Theorem C91_export_coded : forall imported path s, (forall x, serving s x -> serves imported x) -> (forall x, ~ unserved s x) ->
  (agree (export_imports imported path s) (export_used imported path s) <-> (exists x, serving s x) /\ forall x, serving s x -> ~ one_primitive x).
Proof.
  intros imported path s A N. rewrite (C91_export imported path s A). split; [tauto|]. intros [E P]. split; [exact E|]. split; [exact P|]. intros p L. exfalso.
  destruct p; cbn [leaves] in L; try exact L.
  - destruct L as (x & I & _). exact (N x I).
  - destruct L as (x & I & _). exact (N x I).
  - destruct L as (a & q & t & x & _ & _ & _ & [[I _]|(_ & r & I & F)]); apply (N x); [exact I|right; exists r; auto].
Qed.
Print Assumptions C91_export_coded.
Definition streamer : namespace := mkNamespace [117] [(Service, mkOperation [102] false (mkOp (Unary (TyEnum 5)) RVoid))] [
  mkInterface [83] Events [] [mkOperation [115] false (mkOp (Args 1 [([119], Many text)]) (RMany (Some text)))]].
Example C91_export_coded_case : (forall x, serving streamer x -> serves importedx x) /\ (forall x, ~ unserved streamer x) /\ (exists x, serving streamer x) /\ forall x, serving streamer x -> ~ one_primitive x.
Proof.
  split; [|split; [|split]].
  - intros x H. apply wrapped_ops in H. apply wrapper. cbn in H. destruct H as [<-|[<-|[]]]; vm_compute; reflexivity.
  - intros x [(c & n & [H|[]])|(r & (n & i & [<-|[]] & _ & [H|[]]) & _)]; discriminate H.
  - eexists. apply wrapped_ops. left. reflexivity.
  - intros x H [p E]. apply wrapped_ops in H. cbn in H. destruct H as [<-|[<-|[]]]; discriminate E.
Qed.

(** And providers whose operations all have code: one parameter in one of them is enough, and needed. *)
Theorem C91_provider_coded : forall imported path s, (forall x, asking s x -> asks imported x) -> (forall f x, ~ declared s f Provider true x) -> (exists x, asking s x) ->
  (agree (provider_imports imported path s) (provider_used imported path s) <-> exists x, asking s x /\ has_data x).
Proof.
  intros imported path s A N (x0 & I0). rewrite (C91_provider imported path s A).
  assert (C : forall x, asking s x -> asking_code s x) by (intros x [H|([] & H)]; [exists true; exact H|destruct (N _ _ H)|exists false; exact H]).
  assert (D : needs_any s).
  { destruct (C x0 I0) as ([] & n & H).
    - left. exists false, x0, n. exact H.
    - destruct H as (i & I & R & H). right. exists i. split; [exact I|]. split; [exact R|]. intros [m [] y] O; [|reflexivity]. destruct (N false y). exists m, i. auto. }
  split; [intros [[Z _]|(_ & H & _)]; [contradiction|exact H]|]. intros H. right. split; [exact D|]. split; [exact H|]. intros x p I B. exists x. auto.
Qed.
Print Assumptions C91_provider_coded.
Example C91_provider_coded_case : (forall f x, ~ declared shortener f Provider true x) /\ exists x, asking shortener x.
Proof.
  split.
  - intros [] x (n & H); [destruct H|]. destruct H as (i & [<-|[<-|[]]] & R & H); [discriminate R|]. destruct H as [H|[H|[H|[]]]]; discriminate H.
  - eexists. apply invoked_ops. left. reflexivity.
Qed.

(** Files that do not compile though all that is written in them does one by one: a service with an operation that takes a string by itself (msgpack is named and not
    imported); a module without services (context is imported and not named); a provider
    whose operations take no parameters (msgpack is imported and not named); a provider with an operation without code (its invoker is written without
    imports). *)
Definition single (r : role) (c : bool) (x : op) : namespace := mkNamespace [117] [] [mkInterface [83] r [] [mkOperation [115] c x]].
Theorem C91_files_refuted : forall path,
  let says := mkOp (Unary text) RVoid in let now := mkOp (Args 1 []) (ROne text) in
  (serves importedx says /\ In PMsgpack (export_used importedx path (single Service false says)) /\ ~ In PMsgpack (export_imports importedx path (single Service false says)))
  /\ (In PContext (export_imports importedx path (single Provider false says)) /\ export_used importedx path (single Provider false says) = [])
  /\ (asks importedx now /\ In PMsgpack (provider_imports importedx path (single Provider false now)) /\ ~ In PMsgpack (provider_used importedx path (single Provider false now)))
  /\ (asks importedx says /\ In PContext (provider_used importedx path (single Provider true says)) /\ provider_imports importedx path (single Provider true says) = [PInvoke]).
Proof.
  intros path says now. split; [|split; [|split]].
  - split; [apply wrapper; vm_compute; reflexivity|]. split; vm_compute; intuition congruence.
  - split; vm_compute; intuition congruence.
  - split; [apply invoker; vm_compute; reflexivity|]. split; vm_compute; intuition congruence.
  - split; [apply invoker; vm_compute; reflexivity|]. split; vm_compute; intuition congruence.
Qed.
Print Assumptions C91_files_refuted.
(** With another operation that takes parameters, the provider's file compiles. *)
Example C91_files_refuted_case : forall path,
  agree (provider_imports importedx path (mkNamespace [117] [(Provider, mkOperation [102] false (mkOp (Unary text) RVoid))] [mkInterface [83] Provider [] [mkOperation [115] false (mkOp (Args 1 []) (ROne text))]]))
        (provider_used importedx path (mkNamespace [117] [(Provider, mkOperation [102] false (mkOp (Unary text) RVoid))] [mkInterface [83] Provider [] [mkOperation [115] false (mkOp (Args 1 []) (ROne text))]])).
Proof. intros path p. vm_compute. intuition congruence. Qed.

(** The invokers of provided functions name variables that the file declares. *)
Theorem C91_variables : forall s, incl (provider_refs s) (op_vars (hasAny s) s).
Proof. exact provider_vars. Qed.
Print Assumptions C91_variables.
Example C91_variables_case : provider_refs (mkNamespace [117] [(Provider, mkOperation [102] false (mkOp (Unary text) RVoid))] []) = [[102]].
Proof. reflexivity. Qed.

(** The file of clients for services, when its invokers compile one by one: no function is a service (the variables of their invokers are not declared); and there
    is a service, with parameters in some operation of the services and events, or there is nothing to call. *)
Theorem C91_client : forall imported path s, NoDup (map (fun f => n_name (snd f)) (s_functions s)) -> (forall f x, offered s f x -> asks imported x) ->
  (agree (client_imports imported path s) (client_used imported path s) /\ incl (client_refs s) (op_vars (client_hasAny s) s) <->
   (forall x, ~ offered s true x) /\ ((~ has_service s /\ forall x, ~ offered s false x) \/ (has_service s /\ exists x, offered s false x /\ has_data x))).
Proof. exact client_file. Qed.
Print Assumptions C91_client.
Example C91_client_case : forall path, NoDup (map (fun f => n_name (snd f)) (s_functions shortener)) /\ (forall f x, offered shortener f x -> asks importedx x)
  /\ agree (client_imports importedx path shortener) (client_used importedx path shortener) /\ has_service shortener /\ exists x, offered shortener false x /\ has_data x.
Proof.
  intros path. split; [constructor|]. split; [|split; [|split]].
  - intros f x H. apply invoker. assert (I : In x (client_ops shortener)) by (apply client_in; eauto). cbn in I. destruct I as [<-|[<-|[]]]; vm_compute; reflexivity.
  - intros p. vm_compute. intuition congruence.
  - eexists. split; [left; reflexivity|reflexivity].
  - eexists. split; [exists Service, false; split; [|left; reflexivity]; exists [115]; eexists; split; [left; reflexivity|]; split; [reflexivity|left; reflexivity]|].
    exists [117], false, text. left. reflexivity.
Qed.
(** A function that is a service, whose client names a variable that is not there; and events without a service, whose clients are written without imports. *)
Theorem C91_clients_refuted : forall path,
  let f := mkNamespace [117] [(Service, mkOperation [102] false (mkOp (Unary text) RVoid))] [] in let e := single Events false (mkOp (Unary text) RVoid) in
  (client_refs f = [[102]] /\ op_vars (client_hasAny f) f = [])
  /\ (In PContext (client_used importedx path e) /\ client_imports importedx path e = [PInvoke]).
Proof. intros path. vm_compute. intuition congruence. Qed.
Print Assumptions C91_clients_refuted.
Example C91_clients_refuted_case : asks importedx (mkOp (Unary text) RVoid).
Proof. apply invoker. vm_compute. reflexivity. Qed.
