(** Proofs for C91. *)
From Coq Require Import List NArith Bool.
From Verif Require Import Base OperationsModel MsgpackModel GenModel GenSpec OpGenModel OpGenSpec RegGenModel PkgGenModel PkgGenSpec.
Import ListNotations.
Open Scope N_scope.

Section Proofs.
Context (imported : N -> bool) (path : N -> N).
Notation type_pkgs := (type_pkgs imported path).
Notation provider_check := (provider_check imported path).
Notation export_check := (export_check imported path).
Notation invoker_pkgs := (invoker_pkgs imported path).
Notation wrapper_pkgs := (wrapper_pkgs imported path).
Notation provider_visited := (provider_visited imported path).
Notation about := (about imported path).

Lemma prim_in : forall p k, In p (prim_pkgs k) <-> p = PTime /\ k = NDatetime.
Proof. intros p k. destruct k; cbn; intuition congruence. Qed.

Definition alias_in (p : pkg) (t : ty) : Prop := exists a q, imported a = true /\ p = POther (path a) /\ within (TyAlias a q) t.
Lemma type_in : forall p t, In p (type_pkgs t) <-> (p = PTime /\ within (TyPrim NDatetime) t) \/ alias_in p t.
Proof.
  intros p. induction t as [k|n|n|n|a k|o u IH|k o u IH]; cbn [PkgGenModel.type_pkgs].
  - rewrite prim_in. split; [intros [-> ->]; left; split; [reflexivity|constructor]|]. intros [[-> W]|(a & q & _ & _ & W)]; inversion W; subst; auto.
  - split; [intros []|]. intros [[-> W]|(a & q & _ & _ & W)]; inversion W.
  - split; [intros []|]. intros [[-> W]|(a & q & _ & _ & W)]; inversion W.
  - split; [intros []|]. intros [[-> W]|(a & q & _ & _ & W)]; inversion W.
  - split.
    + destruct (imported a) eqn:I; [|intros []]. intros [<-|[]]. right. exists a, k. repeat split; [exact I|constructor].
    + intros [[-> W]|(b & q & I & -> & W)]; inversion W; subst. rewrite I. left. reflexivity.
  - rewrite IH. split; (intros [[-> W]|(a & q & I & E & W)]; [left; split; [reflexivity|]|right; exists a, q; split; [exact I|]; split; [exact E|]]); try (constructor; exact W); inversion W; subst; assumption.
  - rewrite in_app_iff, prim_in, IH. split.
    + intros [[-> ->]|[[-> W]|(a & q & I & E & W)]]; [left; split; [reflexivity|constructor]|left; split; [reflexivity|constructor; exact W]|right; exists a, q; split; [exact I|]; split; [exact E|]; constructor; exact W].
    + intros [[-> W]|(a & q & I & E & W)].
      * inversion W; subst; [left; auto|right; left; auto].
      * inversion W; subst. right. right. exists a, q. auto.
Qed.
Lemma export_in : forall p t, In p (export_check t) <-> alias_in p t.
Proof.
  intros p. induction t as [k|n|n|n|a k|o u IH|k o u IH]; cbn [PkgGenModel.export_check]; try (split; [intros []|]; intros (a & q & _ & _ & W); inversion W; fail).
  - split.
    + destruct (imported a) eqn:I; [|intros []]. intros [<-|[]]. exists a, k. repeat split; [exact I|constructor].
    + intros (b & q & I & -> & W); inversion W; subst. rewrite I. left. reflexivity.
  - rewrite IH. split; intros (a & q & I & E & W); exists a, q; (split; [exact I|]); (split; [exact E|]); try (constructor; exact W); inversion W; subst; assumption.
  - rewrite IH. split; intros (a & q & I & E & W); exists a, q; (split; [exact I|]); (split; [exact E|]); try (constructor; exact W); inversion W; subst; assumption.
Qed.

Lemma plain_check : forall t pl o, plain imported pl o t = true -> provider_check t = type_pkgs t.
Proof.
  induction t as [k|n|n|n|a k|o' u IH|k o' u IH]; intros pl o H; cbn [PkgGenModel.provider_check PkgGenModel.type_pkgs]; try reflexivity.
  - cbn [plain] in H. destruct (imported a); [reflexivity|]. cbn [orb] in H. destruct k; try reflexivity. rewrite andb_true_iff in H. destruct H as [_ H]. discriminate H.
  - cbn [plain] in H. rewrite andb_true_iff in H. destruct H as [_ H]. exact (IH _ _ H).
  - cbn [plain] in H. rewrite !andb_true_iff in H. destruct H as [_ H]. rewrite (IH _ _ H). reflexivity.
Qed.
Lemma simple_check : forall t, simple imported t = true -> provider_check t = type_pkgs t.
Proof. intros t H. destruct t as [k|n|n|n|a k|o u|k o u]; try reflexivity; try discriminate H. cbn [simple] in H. destruct k; try discriminate H. cbn. destruct (imported a); [discriminate H|reflexivity]. Qed.
Lemma object_check : forall t, object t = true -> provider_check t = type_pkgs t /\ type_pkgs t = [].
Proof. intros t H. destruct t; try discriminate H; split; reflexivity. Qed.
Lemma one_check : forall t, one_result imported t = true -> provider_check t = type_pkgs t.
Proof.
  intros t H. unfold one_result in H. rewrite !orb_true_iff in H. destruct H as [[H|H]|H]; [exact (simple_check _ H)|apply object_check; exact H|].
  destruct t as [| | | | |[] u|]; try discriminate H. cbn. apply object_check. exact H.
Qed.
Lemma item_check : forall t, caller_item imported t = true -> provider_check t = type_pkgs t.
Proof. intros t H. destruct t; try reflexivity; try discriminate H. apply simple_check. cbn [caller_item] in H. rewrite orb_true_iff in H. destruct H as [H|H]; [exact H|discriminate H]. Qed.

(** ** Invokers *)
Definition in_types (i : input) : list ty := match i with Unary t => [t] | Args _ l => map (fun p => match snd p with One _ t => t | Many t => t end) l end.
Definition out_types (r : result) : list ty := match r with ROne t | RMany (Some t) => [t] | _ => [] end.
Lemma has_type_in : forall x t, has_type x t <-> In t (in_types (o_in x)) \/ In t (out_types (o_out x)).
Proof.
  intros [i r] t. unfold has_type. cbn [o_in o_out].
  assert (I : match i with Unary u => t = u | Args _ l => exists n, (exists o, In (n, One o t) l) \/ In (n, Many t) l end <-> In t (in_types i)).
  { destruct i as [u|n l]; cbn [in_types]; [cbn; intuition congruence|]. rewrite in_map_iff. split.
    - intros (m & [(o & H)|H]); eexists; (split; [|exact H]); reflexivity.
    - intros ([m [o u|u]] & <- & H); exists m; [left; exists o; exact H|right; exact H]. }
  rewrite I. assert (O : (r = ROne t \/ r = RMany (Some t)) <-> In t (out_types r)) by (destruct r as [|u|[u|]]; cbn; intuition congruence). rewrite O. reflexivity.
Qed.
Lemma mentions_in : forall x p, (exists t, (In t (in_types (o_in x)) \/ In t (out_types (o_out x))) /\ In p (type_pkgs t)) <->
  (p = PTime /\ mentions x (TyPrim NDatetime)) \/ exists a q, imported a = true /\ p = POther (path a) /\ mentions x (TyAlias a q).
Proof.
  intros x p. unfold mentions. split.
  - intros (t & H & P). apply has_type_in in H. apply type_in in P. destruct P as [[-> W]|(a & q & I & E & W)]; [left; split; [reflexivity|]; exists t; auto|].
    right. exists a, q. split; [exact I|]. split; [exact E|]. exists t. auto.
  - intros [[-> (t & H & W)]|(a & q & I & E & t & H & W)]; apply has_type_in in H; exists t; (split; [exact H|]); apply type_in; [left; auto|right; exists a, q; auto].
Qed.
Definition rx_in (x : op) (p : pkg) : Prop := (p = PMono /\ ~ streams_out x) \/ (p = PFlux /\ (streams_out x \/ streams_in x)).
Lemma about_in : forall x p, about x p <-> rx_in x p \/ exists t, (In t (in_types (o_in x)) \/ In t (out_types (o_out x))) /\ In p (type_pkgs t).
Proof.
  intros x p. rewrite mentions_in. unfold rx_in. destruct p; cbn [PkgGenSpec.about]; try (split; [intros []|intros [[[E _]|[E _]]|[[E _]|(a & q & _ & E & _)]]; discriminate E]).
  - split; [intro H; right; left; auto|]. intros [[[E _]|[E _]]|[[_ H]|(a & q & _ & E & _)]]; try discriminate E. exact H.
  - split; [intro H; left; left; auto|]. intros [[[_ H]|[E _]]|[[E _]|(a & q & _ & E & _)]]; try discriminate E. exact H.
  - split; [intro H; left; right; auto|]. intros [[[E _]|[_ H]]|[[E _]|(a & q & _ & E & _)]]; try discriminate E. exact H.
  - split.
    + intros (a & q & I & <- & M). right. right. exists a, q. auto.
    + intros [[[E _]|[E _]]|[[E _]|(a & q & I & E & M)]]; try discriminate E. injection E as ->. exists a, q. auto.
Qed.

Lemma stream_params_in : forall l, stream_params l <> [] <-> exists m t, In (m, Many t) l.
Proof.
  induction l as [|[m [o t|t]] l IH]; cbn [stream_params].
  - split; [intro H; now elim H|intros (? & ? & [])].
  - rewrite IH. split; [intros (a & b & H); exists a, b; right; exact H|]. intros (a & b & [H|H]); [discriminate H|eauto].
  - split; [intros _; exists m, t; left; reflexivity|discriminate].
Qed.
Lemma plain_params_in : forall l, plain_params l <> [] <-> exists n o t, In (n, One o t) l.
Proof.
  induction l as [|[m [o t|t]] l IH]; cbn [plain_params].
  - split; [intro H; now elim H|intros (? & ? & ? & [])].
  - split; [intros _; exists m, o, t; left; reflexivity|discriminate].
  - rewrite IH. split; [intros (a & b & c & H); exists a, b, c; right; exact H|]. intros (a & b & c & [H|H]); [discriminate H|eauto].
Qed.

(** What an operation that asks is made of. *)
Lemma asks_out : forall x, asks imported x -> match o_out x with RMany None => False | RVoid => ~ streams_in x | ROne t => ~ streams_in x /\ one_result imported t = true | RMany (Some t) => one_result imported t = true end.
Proof.
  intros [i r] A. unfold asks in A. cbn [o_in o_out] in *. unfold streams_in. cbn [o_in].
  assert (Q : exists s, caller_out imported s r /\ (s = false -> ~ exists n l m t, i = Args n l /\ In (m, Many t) l)).
  { destruct i as [t|n l].
    - exists false. split; [apply A|]. intros _ (? & ? & ? & ? & E & _). discriminate E.
    - destruct A as [_ [[N A]|(l1 & m & t & l2 & _ & _ & _ & _ & A)]]; [exists false; split; [exact A|]|exists true; split; [exact A|discriminate]].
      intros _ (n' & l' & m & t & E & H). injection E as <- <-. exact (N _ _ H). }
  destruct Q as (s & C & Z). destruct r as [|t|[t|]]; cbn [caller_out] in C; auto. destruct C as [C1 C2]. auto.
Qed.
Lemma asks_types : forall x, asks imported x -> forall t, In t (out_types (o_out x)) -> provider_check t = type_pkgs t.
Proof. intros x A t H. apply asks_out in A. destruct (o_out x) as [|u|[u|]]; cbn in H; try contradiction; destruct H as [<-|[]]; apply one_check; [apply A|exact A]. Qed.
Lemma asks_unary : forall x t, asks imported x -> o_in x = Unary t -> type_pkgs t = [].
Proof. intros [i r] t A E. cbn [o_in] in E. subst i. unfold asks in A. cbn [o_in] in A. destruct A as [A _]. destruct t as [k| | | | | |]; try reflexivity; try discriminate A. destruct k; try reflexivity; discriminate A. Qed.
Lemma asks_params : forall x n l, asks imported x -> o_in x = Args n l -> forall p, In p l -> match snd p with One _ t => provider_check t = type_pkgs t | Many t => provider_check t = type_pkgs t end.
Proof.
  intros [i r] n l A E. cbn [o_in] in E. subst i. unfold asks in A. cbn [o_in] in A. destruct A as [P A]. intros [m [o t|t]] H; cbn [snd].
  - exact (plain_check _ _ _ (P _ _ _ H)).
  - destruct A as [[N _]|(l1 & k & u & l2 & -> & N1 & N2 & C & _)]; [destruct (N _ _ H)|]. apply in_app_or in H. destruct H as [H|[H|H]]; [destruct (N1 _ _ H)| |destruct (N2 _ _ H)].
    injection H as _ <-. exact (item_check _ C).
Qed.

Lemma streams_in_args : forall n l r, streams_in (mkOp (Args n l) r) <-> exists m t, In (m, Many t) l.
Proof. intros n l r. unfold streams_in. cbn [o_in]. split; [intros (n' & l' & m & t & E & H); injection E as <- <-; eauto|intros (m & t & H); exists n, l, m, t; auto]. Qed.
Lemma streams_in_unary : forall t r, ~ streams_in (mkOp (Unary t) r).
Proof. intros t r (? & ? & ? & ? & E & _). discriminate E. Qed.
Lemma streams_out_many : forall i t, streams_out (mkOp i (RMany t)). Proof. intros. eexists. reflexivity. Qed.
Lemma streams_out_void : forall i, ~ streams_out (mkOp i RVoid). Proof. intros i [t E]. discriminate E. Qed.
Lemma streams_out_one : forall i t, ~ streams_out (mkOp i (ROne t)). Proof. intros i t [u E]. discriminate E. Qed.

(** The packages of the parameters and of the result in a signature. *)
Lemma params_in : forall (f : ty -> list pkg) l p, In p (flat_map (fun q : bytes * param => match snd q with One _ t => f t | Many t => PFlux :: f t end) l) <->
  (p = PFlux /\ exists m t, In (m, Many t) l) \/ exists q, In q l /\ In p (f (match snd q with One _ t => t | Many t => t end)).
Proof.
  intros f l p. rewrite in_flat_map. split.
  - intros ([m [o t|t]] & H & P); cbn [snd] in P; [right; eexists; split; [exact H|exact P]|]. destruct P as [<-|P]; [left; split; [reflexivity|eauto]|right; eexists; split; [exact H|exact P]].
  - intros [[-> (m & t & H)]|([m [o t|t]] & H & P)]; eexists; (split; [exact H|]); cbn [snd]; [left; reflexivity|exact P|right; exact P].
Qed.
Definition signature (x : op) : list pkg :=
  match o_in x with Unary t => type_pkgs t | Args _ l => flat_map (fun p => match snd p with One _ t => type_pkgs t | Many t => PFlux :: type_pkgs t end) l end
  ++ match o_out x with RVoid => [PMono] | ROne t => PMono :: type_pkgs t | RMany None => [PFlux] | RMany (Some t) => PFlux :: type_pkgs t end.
Lemma signature_in : forall x p, In p (signature x) <-> about x p.
Proof.
  intros [i r] p. rewrite about_in. unfold signature, rx_in. cbn [o_in o_out]. rewrite in_app_iff.
  assert (I : In p match i with Unary t => type_pkgs t | Args _ l => flat_map (fun p => match snd p with One _ t => type_pkgs t | Many t => PFlux :: type_pkgs t end) l end <->
     (p = PFlux /\ streams_in (mkOp i r)) \/ exists t, In t (in_types i) /\ In p (type_pkgs t)).
  { destruct i as [t|n l]; cbn [in_types].
    - split; [intro H; right; exists t; split; [left; reflexivity|exact H]|]. intros [[_ H]|(u & [<-|[]] & H)]; [destruct (streams_in_unary _ _ H)|exact H].
    - rewrite params_in, streams_in_args. split; (intros [H|H]; [left; exact H|right]).
      + destruct H as (q & Q & P). eexists. split; [apply in_map; exact Q|exact P].
      + destruct H as (t & T & P). apply in_map_iff in T. destruct T as (q & <- & Q). eauto. }
  assert (O : In p match r with RVoid => [PMono] | ROne t => PMono :: type_pkgs t | RMany None => [PFlux] | RMany (Some t) => PFlux :: type_pkgs t end <->
     (p = PMono /\ ~ streams_out (mkOp i r)) \/ (p = PFlux /\ streams_out (mkOp i r)) \/ exists t, In t (out_types r) /\ In p (type_pkgs t)).
  { pose proof (streams_out_void i) as V. pose proof (streams_out_one i) as W. pose proof (streams_out_many i) as M. destruct r as [|t|[t|]]; cbn [out_types In].
    - split; [intros [<-|[]]; left; auto|]. intros [[-> _]|[[_ H]|(u & [] & _)]]; [left; reflexivity|contradiction].
    - split; [intros [<-|H]; [left; auto|right; right; eauto]|]. intros [[-> _]|[[_ H]|(u & [<-|[]] & H)]]; [left; reflexivity|destruct (W _ H)|right; exact H].
    - split; [intros [<-|H]; [right; left; auto|right; right; eauto]|]. intros [[_ H]|[[-> _]|(u & [<-|[]] & H)]]; [destruct (H (M _))|left; reflexivity|right; exact H].
    - split; [intros [<-|[]]; right; left; auto|]. intros [[_ H]|[[-> _]|(u & [] & H)]]; [destruct (H (M _))|left; reflexivity]. }
  rewrite I, O. split.
  - intros [[H|(t & T & P)]|[H|[H|(t & T & P)]]]; [left; right; tauto|right; exists t; tauto|left; left; tauto|left; right; tauto|right; exists t; tauto].
  - intros [[H|[-> [H|H]]]|(t & [T|T] & P)]; [right; left; exact H|right; right; left; auto|left; left; auto|left; right; eauto|right; right; right; eauto].
Qed.

Lemma visited_in : forall x p, asks imported x -> (In p (provider_visited x) <-> about x p).
Proof.
  intros x p A. rewrite <- signature_in. unfold PkgGenModel.provider_visited, signature. rewrite !in_app_iff.
  assert (R : provider_result imported path (o_out x) = match o_out x with RVoid => [PMono] | ROne t => PMono :: type_pkgs t | RMany None => [PFlux] | RMany (Some t) => PFlux :: type_pkgs t end).
  { pose proof (asks_types x A) as T. destruct (o_out x) as [|t|[t|]]; cbn [provider_result out_types] in *; try reflexivity; rewrite (T t (or_introl eq_refl)); reflexivity. }
  rewrite R. assert (P : In p (provider_params imported path (o_in x)) <-> In p match o_in x with Unary t => type_pkgs t | Args _ l => flat_map (fun p => match snd p with One _ t => type_pkgs t | Many t => PFlux :: type_pkgs t end) l end).
  { destruct (o_in x) as [t|n l] eqn:E; cbn [provider_params].
    - rewrite (asks_unary x t A E). reflexivity.
    - rewrite !params_in. pose proof (asks_params x n l A E) as Q. split; (intros [H|(q & I & H)]; [left; exact H|right; exists q; split; [exact I|]]); specialize (Q q I); destruct (snd q); congruence. }
  rewrite P. tauto.
Qed.

Definition fixed (p : pkg) : Prop := p = PContext \/ p = PBinary \/ p = PPayload \/ p = PProxy \/ p = PTransform.
Lemma invoker_in : forall x p, asks imported x -> (In p (invoker_pkgs x) <-> fixed p \/ (p = PMsgpack /\ has_data x) \/ about x p).
Proof.
  intros x p A.
  assert (E : In p (invoker_pkgs x) <-> In p [PContext; PProxy; PBinary; PPayload] \/ In p (signature x)
    \/ In p match o_in x with Unary (TyEnum _ | TyType _ | TyUnion _ | TyPrim _) => [PMsgpack; rx_pkg (returnPackage (o_out x))] | Unary _ => [] | Args _ l => match plain_params l with [] => [] | _ => [PMsgpack; rx_pkg (returnPackage (o_out x))] end end
    \/ In p match streamIn (o_in x) with Some _ => [PFlux; PTransform] | None => [] end
    \/ In p match o_out x with RVoid | RMany None => [PMono; PTransform] | ROne t | RMany (Some t) => [rx_pkg (returnPackage (o_out x)); PTransform] ++ match t with TyList _ u => type_pkgs u | TyMap _ _ _ => type_pkgs t | _ => [] end end).
  { unfold PkgGenModel.invoker_pkgs, signature. rewrite !in_app_iff. cbn [In]. destruct (o_in x) as [[]|]; tauto. }
  assert (RP : about x (rx_pkg (returnPackage (o_out x)))).
  { apply about_in. left. destruct x as [i [|t|t]]; cbn [o_out returnPackage rx_pkg]; [left; split; [reflexivity|apply streams_out_void]|left; split; [reflexivity|apply streams_out_one]|right; split; [reflexivity|left; apply streams_out_many]]. }
  rewrite E, signature_in. unfold fixed. clear E. pose proof (asks_out x A) as O. split.
  - intros [H|[H|[H|[H|H]]]].
    + left. cbn in H. intuition congruence.
    + right. right. exact H.
    + assert (Z : (p = PMsgpack \/ p = rx_pkg (returnPackage (o_out x))) /\ has_data x).
      { unfold has_data. destruct (o_in x) as [t|n l]; [destruct t; try contradiction H; (split; [cbn in H; intuition congruence|exact Logic.I])|].
        destruct (plain_params l) as [|q ps] eqn:Q; [contradiction H|]. split; [cbn in H; intuition congruence|]. apply plain_params_in. rewrite Q. discriminate. }
      destruct Z as [[->| ->] D]; right; [left; auto|right; exact RP].
    + assert (Z : (p = PFlux \/ p = PTransform) /\ streams_in x).
      { destruct x as [[t|n l] r]; cbn [o_in] in *; [contradiction H|]. rewrite streams_in_args. unfold streamIn in H. cbn [streams] in H. destruct (stream_params l) eqn:Q; [contradiction H|].
        split; [cbn in H; intuition congruence|]. apply stream_params_in. rewrite Q. discriminate. }
      destruct Z as [[->| ->] D]; [right; right; cbn; right; exact D|left; tauto].
    + destruct (o_out x) as [|t|[t|]] eqn:R; [| | |destruct O].
      * cbn in H. destruct H as [<-|[<-|[]]]; [right; right; exact RP|left; tauto].
      * rewrite in_app_iff in H. destruct H as [[<-|[<-|[]]]|H]; [right; right; exact RP|left; tauto|]. right. right. apply about_in. right. exists t. rewrite R. split; [right; left; reflexivity|]. destruct t; try contradiction H; exact H || (cbn; exact H).
      * rewrite in_app_iff in H. destruct H as [[<-|[<-|[]]]|H]; [right; right; exact RP|left; tauto|]. right. right. apply about_in. right. exists t. rewrite R. split; [right; left; reflexivity|]. destruct t; try contradiction H; exact H || (cbn; exact H).
  - intros [[->|[->|[->|[->| ->]]]]|[[-> D]|H]]; try (left; cbn; tauto).
    + right. right. right. right. destruct (o_out x) as [|t|[t|]]; [| | |destruct O]; cbn; tauto.
    + right. right. left. unfold has_data in D. destruct (o_in x) as [t|n l] eqn:I.
      * destruct x as [i r]. cbn [o_in] in I. subst i. unfold asks in A. cbn [o_in] in A. destruct A as [A _]. destruct t; try discriminate A; left; reflexivity.
      * apply plain_params_in in D. destruct (plain_params l); [now elim D|left; reflexivity].
    + right. left. exact H.
Qed.

(** ** providers.go *)
Lemma role_provider : forall r, isProvider r = true <-> r = Provider. Proof. intros []; cbn; intuition congruence. Qed.
Lemma filtered_false : forall r c, filtered r c = false <-> r = Provider /\ c = false.
Proof. intros [] []; cbn; intuition congruence. Qed.
Lemma visited_ops : forall s x, In x (visited s) <-> asking_code s x.
Proof.
  intros s x. unfold visited, asking_code. rewrite in_app_iff, !in_flat_map. split.
  - intros [([r [n c y]] & H & P)|(i & H & P)].
    + cbn [fst snd n_nocode n_op] in P. destruct (filtered r c) eqn:F; [contradiction P|]. destruct P as [<-|[]]. apply filtered_false in F. destruct F as [-> ->]. exists true, n. exact H.
    + apply in_flat_map in P. destruct P as ([n c y] & Q & P). cbn [n_nocode n_op] in P. destruct (filtered (f_role i) c) eqn:F; [contradiction P|]. destruct P as [<-|[]].
      apply filtered_false in F. destruct F as [F ->]. exists false, n, i. auto.
  - intros ([] & n & H).
    + left. eexists. split; [exact H|]. cbn. left. reflexivity.
    + destruct H as (i & I & R & H). right. exists i. split; [exact I|]. apply in_flat_map. eexists. split; [exact H|]. cbn [n_nocode n_op]. rewrite (proj2 (filtered_false _ _) (conj R eq_refl)). left. reflexivity.
Qed.
Lemma invoked_ops : forall s x, In x (invoked s) <-> asking s x.
Proof.
  intros s x. unfold invoked, asking. rewrite in_app_iff, !in_flat_map. split.
  - intros [([r [n c y]] & H & P)|(i & H & P)].
    + cbn [fst snd n_nocode n_op] in P. destruct (filtered r c) eqn:F; [contradiction P|]. destruct P as [<-|[]]. apply filtered_false in F. destruct F as [-> ->]. left. exists n. exact H.
    + destruct (filtered (f_role i) false) eqn:F; [contradiction P|]. apply filtered_false in F. destruct F as [F _]. apply in_map_iff in P. destruct P as ([n c y] & <- & P). right. exists c, n, i. auto.
  - intros [[n H]|(c & n & i & I & R & H)].
    + left. eexists. split; [exact H|]. cbn. left. reflexivity.
    + right. exists i. split; [exact I|]. rewrite (proj2 (filtered_false _ _) (conj R eq_refl)). apply in_map_iff. eexists. split; [|exact H]. reflexivity.
Qed.
Lemma has_any : forall s, hasAny s = true <-> needs_any s.
Proof.
  intros s. unfold hasAny, needs_any. rewrite orb_true_iff, !existsb_exists. split.
  - intros [(i & I & H)|([r [n c y]] & I & H)].
    + rewrite andb_true_iff, role_provider, negb_true_iff in H. destruct H as [R H]. right. exists i. split; [exact I|]. split; [exact R|]. intros o O.
      destruct (n_nocode o) eqn:E; [|reflexivity]. rewrite <- H. symmetry. apply existsb_exists. eauto.
    + apply role_provider in H. cbn in H. subst r. left. exists c, y, n. exact I.
  - intros [(c & y & n & H)|(i & I & R & H)].
    + right. eexists. split; [exact H|reflexivity].
    + left. exists i. split; [exact I|]. rewrite R. cbn. rewrite negb_true_iff. destruct (existsb n_nocode (f_ops i)) eqn:E; [|reflexivity].
      apply existsb_exists in E. destruct E as (o & O & E). rewrite (H o O) in E. discriminate E.
Qed.
Lemma code_asks : forall s x, asking_code s x -> asking s x.
Proof. intros s x ([] & H); [left; exact H|right; exists false; exact H]. Qed.

Lemma any_file : forall (h : bool) vis inv, (forall x, In x inv -> asks imported x) -> (forall x, In x vis -> In x inv) ->
  (agree (if h then [PContext; PBinary; PInvoke; PPayload; PProxy] ++ flat_map provider_visited vis ++ [PTransform; PMsgpack] else [PInvoke])
         (PInvoke :: flat_map invoker_pkgs inv) <->
   (h = false /\ forall x, ~ In x inv)
   \/ (h = true /\ (exists x, In x inv /\ has_data x) /\ forall x p, In x inv -> about x p -> exists y, In y vis /\ about y p)).
Proof.
  intros h vis inv A S. unfold agree.
  assert (U : forall p, In p (PInvoke :: flat_map invoker_pkgs inv) <-> p = PInvoke \/ exists x, In x inv /\ (fixed p \/ (p = PMsgpack /\ has_data x) \/ about x p)).
  { intros p. cbn [In]. rewrite in_flat_map. split.
    - intros [<-|(x & I & H)]; [left; reflexivity|]. right. exists x. split; [exact I|]. apply invoker_in; auto.
    - intros [->|(x & I & H)]; [left; reflexivity|]. right. exists x. split; [exact I|]. apply invoker_in; auto. }
  assert (V : forall p, In p (flat_map provider_visited vis) <-> exists y, In y vis /\ about y p).
  { intros p. rewrite in_flat_map. split; intros (y & I & H); exists y; (split; [exact I|]); apply visited_in in H || apply visited_in; auto. }
  destruct h.
  - split.
    + intros H. right. split; [reflexivity|].
      assert (M : exists x, In x inv /\ has_data x).
      { destruct (proj1 (U PMsgpack) (proj1 (H PMsgpack) ltac:(rewrite !in_app_iff; cbn; tauto))) as [E|(x & I & [F|[[_ D]|F]])]; [discriminate E|unfold fixed in F; intuition discriminate|eauto|destruct F]. }
      split; [exact M|]. intros x p I B.
      assert (Q : In p (PInvoke :: flat_map invoker_pkgs inv)) by (apply U; right; exists x; auto). apply H in Q. rewrite !in_app_iff in Q. destruct Q as [Q|[Q|Q]]; [|apply V; exact Q|].
      * cbn in Q. destruct Q as [<-|[<-|[<-|[<-|[<-|[]]]]]]; destruct B.
      * cbn in Q. destruct Q as [<-|[<-|[]]]; destruct B.
    + intros [[Z _]|(_ & (x & I & D) & H)]; [discriminate Z|]. intros p. rewrite U, !in_app_iff, V. split.
      * intros [Q|[(y & J & B)|Q]].
        -- cbn in Q. unfold fixed. destruct Q as [<-|[<-|[<-|[<-|[<-|[]]]]]]; try (left; reflexivity); right; exists x; tauto.
        -- right. exists y. split; [apply S; exact J|tauto].
        -- cbn in Q. unfold fixed. destruct Q as [<-|[<-|[]]]; right; exists x; tauto.
      * intros [->|(y & J & [F|[[-> _]|B]])]; [left; cbn; tauto| |right; right; cbn; tauto|right; left; exact (H y p J B)].
        unfold fixed in F. destruct F as [->|[->|[->|[->| ->]]]]; cbn; tauto.
  - split.
    + intros H. left. split; [reflexivity|]. intros x I.
      assert (Q : In PContext (PInvoke :: flat_map invoker_pkgs inv)) by (apply U; right; exists x; unfold fixed; tauto). apply H in Q. cbn in Q. destruct Q as [Q|[]]. discriminate Q.
    + intros [[_ Z]|[Y _]]; [|discriminate Y]. intros p. rewrite U. cbn. split; [intros [<-|[]]; left; reflexivity|]. intros [->|(x & I & _)]; [left; reflexivity|destruct (Z x I)].
Qed.

Theorem provider_file : forall s, (forall x, asking s x -> asks imported x) ->
  (agree (provider_imports imported path s) (provider_used imported path s) <->
   (~ needs_any s /\ forall x, ~ asking s x)
   \/ (needs_any s /\ (exists x, asking s x /\ has_data x) /\ forall x p, asking s x -> about x p -> exists y, asking_code s y /\ about y p)).
Proof.
  intros s A. unfold provider_imports, provider_used.
  rewrite (any_file (hasAny s) (visited s) (invoked s)); [|intros x H; apply A, invoked_ops, H|intros x H; apply invoked_ops, code_asks, visited_ops, H].
  rewrite <- has_any. split.
  - intros [[H Z]|(H & (x & I & D) & B)]; [left|right].
    + split; [rewrite H; discriminate|]. intros x I. apply (Z x), invoked_ops, I.
    + split; [exact H|]. split; [exists x; split; [apply invoked_ops, I|exact D]|]. intros y p J C. apply invoked_ops in J. destruct (B y p J C) as (z & K & E). exists z. split; [apply visited_ops, K|exact E].
  - intros [[H Z]|(H & (x & I & D) & B)]; [left|right].
    + split; [destruct (hasAny s); [now elim H|reflexivity]|]. intros x I. apply (Z x), invoked_ops, I.
    + split; [exact H|]. split; [exists x; split; [apply invoked_ops, I|exact D]|]. intros y p J C. apply invoked_ops in J. destruct (B y p J C) as (z & K & E). exists z. split; [apply visited_ops, K|exact E].
Qed.

(** ** export.go *)
Lemma role_handler : forall r, isHandler r = true <-> handles_it r. Proof. unfold handles_it. intros []; cbn; intuition congruence. Qed.
Lemma wrapped_ops : forall s x, In x (wrapped s) <-> serving s x.
Proof.
  intros s x. unfold wrapped, serving. rewrite in_app_iff, !in_flat_map. split.
  - intros [([r [n c y]] & H & P)|(i & H & P)].
    + cbn [fst snd n_op] in P. destruct (isProvider r) eqn:F; [contradiction P|]. destruct P as [<-|[]]. left. exists r, c. split; [exists n; exact H|]. intros ->. discriminate F.
    + apply in_flat_map in P. destruct P as ([n c y] & Q & P). cbn [n_nocode n_op] in P. destruct (isHandler (f_role i)) eqn:F; cbn [negb orb] in P; [|contradiction P]. destruct c; [contradiction P|]. destruct P as [<-|[]].
      right. exists (f_role i). split; [exists n, i; auto|]. apply role_handler. exact F.
  - intros [(r & c & (n & H) & F)|(r & (n & i & I & R & H) & F)].
    + left. eexists. split; [exact H|]. cbn. destruct r; try (left; reflexivity). now elim F.
    + right. exists i. split; [exact I|]. apply in_flat_map. eexists. split; [exact H|]. cbn [n_nocode n_op]. apply role_handler in F. rewrite R, F. left. reflexivity.
Qed.

Lemma serves_out : forall x, serves imported x -> match o_out x with RMany None => False | RVoid => ~ streams_in x | ROne t => ~ streams_in x /\ one_result imported t = true | RMany (Some t) => simple imported t = true end.
Proof.
  intros [i r] A. unfold serves in A. cbn [o_in o_out] in *. unfold streams_in. cbn [o_in].
  assert (Q : exists s, handler_out imported s r /\ (s = false -> ~ exists n l m t, i = Args n l /\ In (m, Many t) l)).
  { destruct i as [t|n l].
    - exists false. split; [apply A|]. intros _ (? & ? & ? & ? & E & _). discriminate E.
    - destruct A as [_ [[N A]|(l1 & m & t & _ & _ & _ & A)]]; [exists false; split; [exact A|]|exists true; split; [exact A|discriminate]].
      intros _ (n' & l' & m & t & E & H). injection E as <- <-. exact (N _ _ H). }
  destruct Q as (s & C & Z). destruct r as [|t|[t|]]; cbn [handler_out] in C; auto. destruct C as [C1 C2]. auto.
Qed.
Lemma one_export : forall t, one_result imported t = true -> export_check t = [].
Proof.
  intros t H. destruct t as [k|n|n|n|a k|[] u|k o u]; try reflexivity; try discriminate H.
  - unfold one_result in H. cbn in H. destruct k; try discriminate H. cbn. destruct (imported a); [discriminate H|reflexivity].
  - cbn in *. destruct u; try discriminate H; reflexivity.
Qed.
Definition base (p : pkg) : Prop := p = PContext \/ p = PInvoke \/ p = PPayload \/ p = PTransform.
Lemma answers_pkg : forall x p, p = rx_pkg (returnPackage (o_out x)) <-> answers x p.
Proof.
  intros [i r] p. pose proof (streams_out_void i) as V. pose proof (streams_out_one i) as W. pose proof (streams_out_many i) as M.
  destruct r as [|t|t]; cbn [o_out returnPackage rx_pkg]; split; try (intros ->; cbn; auto; fail); destruct p; cbn; intro H; try reflexivity; try (destruct H; fail); try (destruct (V H); fail); try (destruct (W _ H); fail); destruct (H (M _)).
Qed.
Lemma wrapper_in : forall x p, serves imported x -> (In p (wrapper_pkgs x) <-> base p \/ (p = PMsgpack /\ one_primitive x) \/ answers x p).
Proof.
  intros x p A. pose proof (serves_out x A) as O.
  rewrite <- (answers_pkg x p).
  unfold PkgGenModel.wrapper_pkgs. rewrite !in_app_iff. unfold base.
  assert (W : wire x = returnPackage (o_out x)).
  { unfold wire. destruct x as [i r]. cbn [o_in o_out] in *. assert (Z : streamIn i <> None -> streams_in (mkOp i r)).
    { intro Z. destruct i as [t|n l]; [now elim Z|]. apply streams_in_args, stream_params_in. unfold streamIn in Z. cbn [streams] in Z. destruct (stream_params l); [now elim Z|discriminate]. }
    destruct (streamIn i) as [si|]; destruct r as [|t|t]; try reflexivity; [destruct (O (Z ltac:(discriminate)))|destruct O as [O _]; destruct (O (Z ltac:(discriminate)))]. }
  rewrite W.
  (* the stream parameter *)
  assert (S : In p match streamIn (o_in x) with Some t => [PFlux; PTransform] ++ match t with TyList _ _ | TyMap _ _ _ => type_pkgs t | _ => [] end | None => [] end -> p = PTransform \/ p = rx_pkg (returnPackage (o_out x))).
  { destruct x as [i r]. cbn [o_in o_out] in *. destruct i as [t|n l]; [intros []|]. unfold streamIn. cbn [streams]. destruct (stream_params l) as [|t ts] eqn:E; [intros []|].
    assert (Y : streams_in (mkOp (Args n l) r)) by (apply streams_in_args, stream_params_in; rewrite E; discriminate).
    assert (F : rx_pkg (returnPackage r) = PFlux) by (destruct r as [|u|[u|]]; try reflexivity; [destruct (O Y)|destruct O as [O _]; destruct (O Y)]). rewrite F.
    assert (T : match t with TyList _ _ | TyMap _ _ _ => type_pkgs t | _ => [] end = []).
    { unfold serves in A. cbn [o_in] in A. destruct A as [_ [[N _]|(l1 & m & u & -> & N1 & C & _)]].
      - apply streams_in_args in Y. destruct Y as (m & u & Y). destruct (N _ _ Y).
      - assert (t = u). { clear - E N1. induction l1 as [|[k [o v|v]] l1 IH]; cbn in E; [congruence|apply IH; [intros a b H; apply (N1 a b); right; exact H|exact E]|destruct (N1 k v); left; reflexivity]. }
        subst u. destruct t; try reflexivity; discriminate C. }
    rewrite T. cbn. intuition congruence. }
  (* the request *)
  assert (R : In p match o_in x with
     | Unary (TyEnum _) | Unary (TyType _) | Unary (TyUnion _) => [PTransform; rx_pkg (returnPackage (o_out x))]
     | Unary (TyAlias a q) => [PTransform; rx_pkg (returnPackage (o_out x))] ++ type_pkgs (TyAlias a q)
     | Unary (TyPrim _) | Unary (TyList _ _) | Unary (TyMap _ _ _) => [PMsgpack; rx_pkg (returnPackage (o_out x))]
     | Args _ l => match plain_params l with [] => [] | _ => [PTransform; rx_pkg (returnPackage (o_out x))] end
     end -> p = PTransform \/ p = rx_pkg (returnPackage (o_out x)) \/ (p = PMsgpack /\ one_primitive x)).
  { destruct x as [i r]. cbn [o_in o_out] in *. destruct i as [t|n l].
    - unfold serves in A. cbn [o_in] in A. destruct A as [A _]. destruct t as [k|n|n|n|a k|o u|k o u]; try discriminate A; try (cbn; intuition congruence).
      + intros [<-|[<-|[]]]; [right; right; split; [reflexivity|exists k; reflexivity]|tauto].
      + assert (I : imported a = false) by (cbn in A; destruct (imported a); [destruct k; discriminate A|reflexivity]). cbn [PkgGenModel.type_pkgs]. rewrite I. cbn. intuition congruence.
    - destruct (plain_params l); cbn; intuition congruence. }
  assert (M : one_primitive x -> In PMsgpack match o_in x with
     | Unary (TyEnum _) | Unary (TyType _) | Unary (TyUnion _) => [PTransform; rx_pkg (returnPackage (o_out x))]
     | Unary (TyAlias a q) => [PTransform; rx_pkg (returnPackage (o_out x))] ++ type_pkgs (TyAlias a q)
     | Unary (TyPrim _) | Unary (TyList _ _) | Unary (TyMap _ _ _) => [PMsgpack; rx_pkg (returnPackage (o_out x))]
     | Args _ l => match plain_params l with [] => [] | _ => [PTransform; rx_pkg (returnPackage (o_out x))] end
     end) by (intros [k E]; rewrite E; left; reflexivity).
  (* the result *)
  assert (T : In p match o_out x with
     | RVoid | RMany None => [PMono; PTransform]
     | ROne t | RMany (Some t) => match t with TyPrim _ | TyAlias _ _ | TyEnum _ | TyType _ | TyUnion _ => [rx_pkg (returnPackage (o_out x)); PTransform] | TyList _ u => [PMono; PTransform] ++ type_pkgs u | TyMap _ _ _ => [] end
     end <-> p = PTransform \/ p = rx_pkg (returnPackage (o_out x))).
  { destruct (o_out x) as [|t|[t|]]; [| | |destruct O].
    - cbn. intuition congruence.
    - destruct O as [_ O]. destruct t as [k|n|n|n|a k|[] u|k o u]; try discriminate O; try (cbn; intuition congruence).
      unfold one_result in O. cbn in O. destruct u; try discriminate O; cbn; intuition congruence.
    - destruct t as [k|n|n|n|a k|o u|k o u]; try discriminate O; cbn; intuition congruence. }
  rewrite T. split.
  - intros [H|[H|[H|H]]].
    + cbn in H. intuition congruence.
    + apply S in H. tauto.
    + apply R in H. tauto.
    + tauto.
  - intros [[->|[->|[->| ->]]]|[[-> H]|H]]; try (left; cbn; tauto).
    + right. right. right. tauto.
    + right. right. left. exact (M H).
    + right. right. right. right. exact H.
Qed.

Lemma result_in : forall r p, In p (export_result imported path r) <-> p = rx_pkg (returnPackage r) \/ exists t, In t (out_types r) /\ alias_in p t.
Proof.
  intros r p. destruct r as [|t|[t|]]; cbn [export_result returnPackage rx_pkg out_types In].
  - split; [intros [<-|[]]; left; reflexivity|]. intros [->|(t & [] & _)]. left; reflexivity.
  - rewrite export_in. split; [intros [<-|H]; [left; reflexivity|right; eauto]|]. intros [->|(u & [<-|[]] & H)]; [left; reflexivity|right; exact H].
  - rewrite export_in. split; [intros [<-|H]; [left; reflexivity|right; eauto]|]. intros [->|(u & [<-|[]] & H)]; [left; reflexivity|right; exact H].
  - split; [intros [<-|[]]; left; reflexivity|]. intros [->|(t & [] & _)]. left; reflexivity.
Qed.
Lemma out_types_in : forall r t, In t (out_types r) <-> r = ROne t \/ r = RMany (Some t).
Proof. intros [|u|[u|]] t; cbn; intuition congruence. Qed.
Lemma serves_found : forall x r func p, serves imported x -> In p (export_visited imported path r func x) -> answers x p.
Proof.
  intros x r func p A H. unfold export_visited in H. rewrite in_app_iff in H. destruct H as [H|H].
  - destruct (func || isHandler r); [|destruct H]. apply result_in in H. destruct H as [H|(t & T & H)]; [apply answers_pkg; exact H|].
    apply export_in in H. pose proof (serves_out x A) as O. destruct (o_out x) as [|u|[u|]]; cbn in T; try contradiction T; destruct T as [<-|[]].
    + rewrite (one_export _ (proj2 O)) in H. destruct H.
    + assert (one_result imported u = true) as Q by (unfold one_result; rewrite O; reflexivity). rewrite (one_export _ Q) in H. destruct H.
  - destruct (isHandler r); [|destruct H]. destruct x as [[t|n l] o]; [|destruct H]. cbn [export_param o_in] in H. unfold serves in A. cbn [o_in] in A. destruct A as [A _].
    destruct t as [k|n|n|n|a k|q u|k q u]; try discriminate A; try (destruct H; fail). cbn in H, A. destruct (imported a); [destruct k; discriminate A|destruct H].
Qed.

Theorem export_file : forall s, (forall x, serving s x -> serves imported x) ->
  (agree (export_imports imported path s) (export_used imported path s) <->
   (exists x, serving s x) /\ (forall x, serving s x -> ~ one_primitive x) /\ forall p, leaves imported path s p -> exists y, serving s y /\ answers y p).
Proof.
  intros s A. unfold agree.
  assert (U : forall p, In p (export_used imported path s) <-> exists x, serving s x /\ (base p \/ (p = PMsgpack /\ one_primitive x) \/ answers x p)).
  { intros p. unfold export_used. rewrite in_flat_map. split; intros (x & I & H); exists x.
    - apply wrapped_ops in I. split; [exact I|]. apply wrapper_in; auto.
    - split; [apply wrapped_ops; exact I|]. apply wrapper_in; auto. }
  assert (L : forall x p, unserved s x -> In p (export_result imported path (o_out x)) -> leaves imported path s p).
  { intros x p I H. apply result_in in H. destruct H as [H|(t & T & a & q & J & -> & W)].
    - apply answers_pkg in H. destruct p; cbn [answers] in H; cbn [leaves]; try (destruct H; fail); exists x; auto.
    - apply out_types_in in T. cbn [leaves]. exists a, q, t, x. split; [exact J|]. split; [reflexivity|]. split; [exact W|]. left. auto. }
  assert (K : forall p, In p (export_found imported path s) -> (exists y, serving s y /\ answers y p) \/ leaves imported path s p).
  { intros p. unfold export_found. rewrite in_app_iff, !in_flat_map. intros [([r [n c x]] & I & H)|(i & I & H)].
    - cbn [fst snd n_op] in H. destruct (isProvider r) eqn:R.
      + apply role_provider in R. subst r. right. apply (L x p); [left; exists c, n; exact I|]. unfold export_visited in H. cbn [isHandler orb] in H. rewrite app_nil_r in H. exact H.
      + assert (V : serving s x) by (left; exists r, c; split; [exists n; exact I|intros ->; discriminate R]). left. exists x. split; [exact V|]. exact (serves_found x _ _ p (A x V) H).
    - apply in_flat_map in H. destruct H as ([n c x] & J & H). cbn [n_op] in H. destruct (isHandler (f_role i)) eqn:R; [|unfold export_visited in H; rewrite R in H; destruct H].
      pose proof (proj1 (role_handler _) R) as R'.
      assert (D : declared s false (f_role i) c x) by (exists n, i; auto). destruct c.
      + right. unfold export_visited in H. rewrite R in H. cbn [orb] in H. rewrite in_app_iff in H. destruct H as [H|H].
        * apply (L x p); [right; exists (f_role i); auto|exact H].
        * destruct (o_in x) as [t|? ?] eqn:E; [|destruct H]. cbn [export_param] in H. apply export_in in H. destruct H as (a & q & Q & -> & W). cbn. exists a, q, t, x.
          split; [exact Q|]. split; [reflexivity|]. split; [exact W|]. right. split; [exact E|]. exists (f_role i). auto.
      + assert (V : serving s x) by (right; exists (f_role i); auto). left. exists x. split; [exact V|]. exact (serves_found x _ _ p (A x V) H). }
  assert (K1 : forall y p, serving s y -> answers y p -> In p (export_found imported path s)).
  { intros y p V B. unfold export_found. rewrite in_app_iff, !in_flat_map. apply answers_pkg in B. destruct V as [(r & c & (n & I) & R)|(r & (n & i & I & R & H) & F)].
    - left. eexists. split; [exact I|]. cbn [fst snd n_op]. unfold export_visited. cbn [orb]. apply in_or_app. left. apply result_in. left. exact B.
    - right. exists i. split; [exact I|]. apply in_flat_map. eexists. split; [exact H|]. cbn [n_op]. unfold export_visited. rewrite R, (proj2 (role_handler _) F). cbn [orb]. apply in_or_app. left. apply result_in. left. exact B. }
  assert (K2 : forall p, leaves imported path s p -> In p (export_found imported path s)).
  { assert (Q : forall x p, unserved s x -> In p (export_result imported path (o_out x)) -> In p (export_found imported path s)).
    { intros x p I H. unfold export_found. rewrite in_app_iff, !in_flat_map. destruct I as [(c & n & I)|(r & (n & i & I & R & J) & F)].
      - left. eexists. split; [exact I|]. cbn [fst snd n_op]. unfold export_visited. cbn [orb]. apply in_or_app. left. exact H.
      - right. exists i. split; [exact I|]. apply in_flat_map. eexists. split; [exact J|]. cbn [n_op]. unfold export_visited. rewrite R, (proj2 (role_handler _) F). cbn [orb]. apply in_or_app. left. exact H. }
    intros p H. destruct p; cbn [leaves] in H; try (destruct H; fail).
    - destruct H as (x & I & H). apply (Q x); [exact I|]. apply result_in. left. apply answers_pkg. exact H.
    - destruct H as (x & I & H). apply (Q x); [exact I|]. apply result_in. left. apply answers_pkg. exact H.
    - destruct H as (a & q & t & x & J & <- & W & [[I T]|(E & r & (n' & i & I & R & D) & F)]).
      + apply (Q x); [exact I|]. apply result_in. right. exists t. split; [apply out_types_in; exact T|]. exists a, q. auto.
      + unfold export_found. rewrite in_app_iff, !in_flat_map. right. exists i. split; [exact I|]. apply in_flat_map. eexists. split; [exact D|]. cbn [n_op]. unfold export_visited.
        rewrite R, (proj2 (role_handler _) F), E. cbn [orb]. apply in_or_app. right. cbn [export_param]. apply export_in. exists a, q. auto. }
  assert (IM : forall p, In p (export_imports imported path s) <-> base p \/ In p (export_found imported path s)).
  { intros p. unfold export_imports, base. rewrite !in_app_iff. cbn [In]. intuition congruence. }
  split.
  - intros H. split; [|split].
    + destruct (proj1 (U PContext) (proj1 (H PContext) (proj2 (IM PContext) ltac:(unfold base; tauto)))) as (x & I & _). eauto.
    + intros x I P. assert (Q : In PMsgpack (export_used imported path s)) by (apply U; exists x; auto). apply H, IM in Q. destruct Q as [Q|Q]; [unfold base in Q; intuition discriminate|].
      apply K in Q. destruct Q as [(y & _ & B)|B]; exact B.
    + intros p B. pose proof (K2 p B) as Q. assert (Q' : In p (export_used imported path s)) by (apply H, IM; right; exact Q). apply U in Q'. destruct Q' as (x & I & [Z|[[-> _]|Z]]).
      * unfold base in Z. destruct Z as [->|[->|[->| ->]]]; destruct B.
      * destruct B.
      * eauto.
  - intros ((x0 & I0) & P & H) p. rewrite U, IM. split.
    + intros [B|B]; [exists x0; auto|]. apply K in B. destruct B as [(y & I & B)|B]; [exists y; auto|]. destruct (H p B) as (y & I & C). exists y. auto.
    + intros (x & I & [B|[[_ B]|B]]); [left; exact B|destruct (P x I B)|right; exact (K1 x p I B)].
Qed.

(** ** Clients *)
Lemma client_in : forall s x, In x (client_ops s) <-> exists f, offered s f x.
Proof.
  intros s x. unfold client_ops, offered, client_filtered. rewrite in_app_iff, !in_flat_map. split.
  - intros [([r [n c y]] & H & P)|(i & H & P)].
    + cbn [fst snd n_op] in P. destruct (isHandler r) eqn:F; [|destruct P]. destruct P as [<-|[]]. exists true, r, c. split; [exists n; exact H|apply role_handler; exact F].
    + destruct (isHandler (f_role i)) eqn:F; [|destruct P]. apply in_map_iff in P. destruct P as ([n c y] & <- & P). exists false, (f_role i), c. split; [exists n, i; auto|apply role_handler; exact F].
  - intros ([] & r & c & (n & H) & F); apply role_handler in F.
    + left. eexists. split; [exact H|]. cbn [fst snd n_op]. rewrite F. left. reflexivity.
    + destruct H as (i & I & R & H). right. exists i. split; [exact I|]. rewrite R, F. apply in_map_iff. eexists. split; [|exact H]. reflexivity.
Qed.
Theorem client_file : forall s, NoDup (map (fun f => n_name (snd f)) (s_functions s)) -> (forall f x, offered s f x -> asks imported x) ->
  (agree (client_imports imported path s) (client_used imported path s) /\ incl (client_refs s) (op_vars (client_hasAny s) s) <->
   (forall x, ~ offered s true x) /\ ((~ has_service s /\ forall x, ~ offered s false x) \/ (has_service s /\ exists x, offered s false x /\ has_data x))).
Proof.
  intros s ND A. unfold client_imports, client_used.
  rewrite (any_file (client_hasAny s) (client_ops s) (client_ops s)); [|intros x H; apply client_in in H; destruct H as (f & H); exact (A f x H)|auto].
  assert (F : incl (client_refs s) (op_vars (client_hasAny s) s) <-> forall x, ~ offered s true x).
  { unfold incl, client_refs. split.
    - intros H x (r & c & (n & I) & R). assert (Q : In n (op_vars (client_hasAny s) s)).
      { apply H, in_flat_map. eexists. split; [exact I|]. cbn [fst snd n_name]. unfold client_filtered. rewrite (proj2 (role_handler _) R). left. reflexivity. }
      unfold op_vars in Q. destruct (client_hasAny s); [|destruct Q]. apply in_flat_map in Q. destruct Q as ([r' o'] & J & Q). cbn [fst snd] in Q. destruct (isProvider r') eqn:P; [|destruct Q]. destruct Q as [Q|[]].
      assert (E : (r, mkOperation n c x) = (r', o')).
      { clear - ND I J Q. revert ND I J. induction (s_functions s) as [|g l IH]; [intros _ []|]. cbn [map]. intros ND I J. inversion ND as [|? ? N1 N2]; subst.
        destruct I as [->|I], J as [->|J]; [reflexivity| | |apply IH; assumption].
        - elim N1. cbn. apply (in_map (fun f => n_name (snd f))) in J. exact J.
        - elim N1. cbn. apply (in_map (fun f => n_name (snd f))) in I. cbn in I. exact I. }
      injection E as <- _. apply role_provider in P. subst r. destruct R as [R|R]; discriminate R.
    - intros H n I. apply in_flat_map in I. destruct I as ([r [m c x]] & I & P). cbn [fst snd n_name] in P. unfold client_filtered in P. destruct (isHandler r) eqn:R; [|destruct P].
      elim (H x). exists r, c. split; [exists m; exact I|apply role_handler; exact R]. }
  rewrite F.
  assert (Any : (forall x, ~ offered s true x) -> (client_hasAny s = true <-> has_service s)).
  { intros N. unfold client_hasAny, has_service. rewrite orb_true_iff, !existsb_exists. split.
    - intros [(i & I & R)|([r [n c x]] & I & R)]; [exists i; split; [exact I|destruct (f_role i); try discriminate R; reflexivity]|].
      elim (N x). exists r, c. split; [exists n; exact I|]. cbn in R. left. destruct r; try discriminate R; reflexivity.
    - intros (i & I & R). left. exists i. rewrite R. auto. }
  assert (Off : (forall x, ~ offered s true x) -> forall x, In x (client_ops s) <-> offered s false x).
  { intros N x. rewrite client_in. split; [intros ([] & H); [destruct (N x H)|exact H]|eauto]. }
  split.
  - intros [H N]. split; [exact N|]. specialize (Any N). specialize (Off N). destruct H as [[H Z]|(H & (x & I & D) & _)]; [left|right].
    + split; [rewrite <- Any, H; discriminate|]. intros x I. apply (Z x), Off, I.
    + split; [apply Any; exact H|]. exists x. split; [apply Off; exact I|exact D].
  - intros [N H]. split; [|exact N]. specialize (Any N). specialize (Off N). destruct H as [[H Z]|(H & x & I & D)]; [left|right].
    + split; [destruct (client_hasAny s); [elim H; apply Any; reflexivity|reflexivity]|]. intros x I. apply (Z x), Off, I.
    + split; [apply Any; exact H|]. split; [exists x; split; [apply Off; exact I|exact D]|]. intros y p J B. exists y. auto.
Qed.
Lemma provider_vars : forall s, incl (provider_refs s) (op_vars (hasAny s) s).
Proof.
  intros s n I. unfold provider_refs in I. apply in_flat_map in I. destruct I as ([r [m c x]] & I & P). cbn [fst snd n_name n_nocode] in P. destruct (filtered r c) eqn:F; [destruct P|].
  destruct P as [<-|[]]. apply filtered_false in F. destruct F as [-> ->].
  assert (H : hasAny s = true) by (apply has_any; left; exists false, x, m; exact I). unfold op_vars. rewrite H. apply in_flat_map. eexists. split; [exact I|]. left. reflexivity.
Qed.
End Proofs.
