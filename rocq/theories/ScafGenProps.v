(** C92: scaffolded services. *)
From Coq Require Import List NArith Bool.
From Verif Require Import Base OperationsModel MsgpackModel GenModel GenSpec GenProps OpGenModel OpGenSpec RegGenModel PkgGenModel PkgGenSpec PkgGenProofs PkgGenProps ScafGenModel ScafGenSpec ScafGenProofs.
Import ListNotations.
Open Scope N_scope.

(** The file imports each package that it names, once, and no others, exactly if there is nothing to scaffold, or: some service has an operation with code; so
    does some of the interfaces to scaffold; their operations without code need no packages that the others do not; and no two imported aliases in them
    are of the same package. *)
Theorem C92_file : forall imported path chosen s,
  good_imports (lines imported path chosen s) (named imported path chosen s) <->
  (forall i, In i (s_interfaces s) -> chosen i = false)
  \/ (service_code s /\ (exists x, to_write chosen s false x)
      /\ (forall x p, to_write chosen s true x -> about imported path x p -> exists y, to_write chosen s false y /\ about imported path y p)
      /\ apart chosen imported path s).
Proof. exact scaffold_file. Qed.
Print Assumptions C92_file.
Definition services (i : interface) : bool := isService (f_role i).
(** The namespace of the repository's test data (the services.go kept there is not of this visitor: it has no mono). *)
Example C92_file_case : forall path, lines importedx path services shortener = [PContext; PErrors; PMono]
  /\ good_imports (lines importedx path services shortener) (named importedx path services shortener) /\ exists x, to_write services shortener true x.
Proof.
  intros path. split; [reflexivity|]. split.
  - split; [vm_compute; repeat constructor; cbn; intuition discriminate|]. intros p. vm_compute. intuition congruence.
  - eexists. eexists. exists [108]. split; [left; reflexivity|]. split; [reflexivity|]. right. left. reflexivity.
Qed.

(** When services are scaffolded and all their operations have code, it is the aliases alone. *)
Theorem C92_services : forall imported path s, (forall x, ~ to_write services s true x) -> (exists x, to_write services s false x) ->
  (good_imports (lines imported path services s) (named imported path services s) <-> apart services imported path s).
Proof.
  intros imported path s N (x & X). rewrite C92_file. split.
  - intros [Z|(_ & _ & _ & H)]; [|exact H]. destruct X as (i & n & I & C & _). rewrite (Z i I) in C. discriminate C.
  - intros H. right. split; [|split; [eauto|split; [|exact H]]].
    + destruct X as (i & n & I & C & O). exists i, (mkOperation n false x). split; [exact I|]. split; [unfold services in C; destruct (f_role i); try discriminate C; reflexivity|]. auto.
    + intros y p Y. destruct (N y Y).
Qed.
Print Assumptions C92_services.
Example C92_services_case : let s := single Service false (mkOp (Args 1 [([117], One false (TyAlias 9 NString))]) (ROne (TyPrim NDatetime))) in
  (forall x, ~ to_write services s true x) /\ (exists x, to_write services s false x) /\ forall path, apart services importedx path s.
Proof.
  cbv zeta. split; [|split].
  - intros x (i & n & [<-|[]] & _ & [H|[]]). discriminate H.
  - eexists. eexists. exists [115]. split; [left; reflexivity|]. split; [reflexivity|left; reflexivity].
  - intros path c d x y a b p q _ _ A B _ _ _. unfold importedx in A, B. apply N.eqb_eq in A, B. congruence.
Qed.

(** The method that is scaffolded for an operation has the type that its interface asks for exactly if the result is not a stream. *)
Theorem C92_method : forall x, scaffold_result (o_out x) = interface_result (o_out x) <-> ~ streams_out x.
Proof. exact result_types. Qed.
Print Assumptions C92_method.
Example C92_method_case : scaffold_result (ROne text) = GoMono (GoValue text) /\ ~ streams_out (mkOp (Args 1 []) (ROne text)).
Proof. split; [reflexivity|]. intros [t E]. discriminate E. Qed.

(** Scaffolds that do not compile: of a service without code (errors is imported and not named); of events without services (context is named and not imported);
    with two aliases of types of one package (imported twice); of an operation that returns a stream (a flux of fluxes). *)
Theorem C92_scaffold_refuted :
  let x := mkOp (Args 1 [([117], One false (TyAlias 8 NString)); ([118], One false (TyAlias 9 NString))]) RVoid in
  (In PErrors (lines importedx id services (single Service true x)) /\ named importedx id services (single Service true x) = [])
  /\ (In PContext (named importedx id (fun _ => true) (single Events false x)) /\ ~ In PContext (lines importedx id (fun _ => true) (single Events false x)))
  /\ lines (fun _ => true) (fun _ => 3) services (single Service false x) = [PContext; PErrors; PMono; POther 3; POther 3]
  /\ scaffold_result (RMany (Some text)) = GoFlux (GoFlux (GoValue text)) /\ interface_result (RMany (Some text)) = GoFlux (GoValue text).
Proof. vm_compute. intuition congruence. Qed.
Print Assumptions C92_scaffold_refuted.
Example C92_scaffold_refuted_case : let x := mkOp (Args 1 [([117], One false (TyAlias 8 NString)); ([118], One false (TyAlias 9 NString))]) RVoid in
  ~ good_imports (lines (fun _ => true) (fun _ => 3) services (single Service false x)) (named (fun _ => true) (fun _ => 3) services (single Service false x)).
Proof. intros x [N _]. vm_compute in N. repeat match goal with H : NoDup (_ :: _) |- _ => inversion H; clear H; subst end. cbn in *. intuition congruence. Qed.
