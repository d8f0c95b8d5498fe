(** Proofs for C92. *)
From Coq Require Import List NArith Bool.
From Verif Require Import Base OperationsModel MsgpackModel GenModel OpGenModel OpGenSpec RegGenModel PkgGenModel PkgGenSpec PkgGenProofs ScafGenModel ScafGenSpec.
Import ListNotations.
Open Scope N_scope.

Section Proofs.
Context (imported : N -> bool) (path : N -> N) (chosen : interface -> bool).
Notation kp := (key_pkg path).
Notation check_keys := (check_keys imported).

Lemma prim_keys_pkgs : forall p, map kp (prim_keys p) = prim_pkgs p. Proof. destruct p; reflexivity. Qed.
Lemma check_pkgs : forall t, map kp (check_keys t) = type_pkgs imported path t.
Proof.
  induction t as [k|n|n|n|a k|o u IH|k o u IH]; cbn [ScafGenModel.check_keys type_pkgs]; try reflexivity.
  - apply prim_keys_pkgs. - destruct (imported a); reflexivity. - exact IH. - rewrite map_app, prim_keys_pkgs, IH. reflexivity.
Qed.
Lemma op_pkgs : forall x p, In p (map kp (op_keys imported x)) <-> about imported path x p.
Proof.
  intros x p. rewrite <- signature_in. unfold op_keys, signature. rewrite map_app, !in_app_iff.
  assert (R : map kp (result_keys imported (o_out x)) = match o_out x with RVoid => [PMono] | ROne t => PMono :: type_pkgs imported path t | RMany None => [PFlux] | RMany (Some t) => PFlux :: type_pkgs imported path t end).
  { destruct (o_out x) as [|t|[t|]]; cbn; try reflexivity; rewrite check_pkgs; reflexivity. }
  assert (I : map kp (param_keys imported (o_in x)) = match o_in x with Unary t => type_pkgs imported path t | Args _ l => flat_map (fun p => match snd p with One _ t => type_pkgs imported path t | Many t => PFlux :: type_pkgs imported path t end) l end).
  { destruct (o_in x) as [t|n l]; cbn [param_keys]; [apply check_pkgs|]. induction l as [|[m [o t|t]] l IH]; cbn [flat_map snd]; [reflexivity| |]; rewrite map_app, IH; cbn [map]; rewrite check_pkgs; reflexivity. }
  rewrite R, I. tauto.
Qed.
Lemma method_in : forall x p, In p (method_pkgs imported path x) <-> p = PContext \/ p = PErrors \/ about imported path x p.
Proof. intros x p. rewrite <- signature_in. unfold method_pkgs, signature. rewrite !in_app_iff. cbn [In]. intuition congruence. Qed.
Lemma methods_in : forall s x, In x (methods chosen s) <-> to_write chosen s false x.
Proof.
  intros s x. unfold methods, to_write. rewrite in_flat_map. split.
  - intros (i & I & H). destruct (chosen i) eqn:C; [|destruct H]. apply in_flat_map in H. destruct H as ([n c y] & J & H). cbn in H. destruct c; [destruct H|]. destruct H as [<-|[]]. exists i, n. auto.
  - intros (i & n & I & C & H). exists i. split; [exact I|]. rewrite C. apply in_flat_map. eexists. split; [exact H|]. left. reflexivity.
Qed.
Lemma found_in : forall s k, In k (found imported chosen s) <-> exists c x, to_write chosen s c x /\ In k (op_keys imported x).
Proof.
  intros s k. unfold found, to_write. rewrite in_flat_map. split.
  - intros (i & I & H). destruct (chosen i) eqn:C; [|destruct H]. apply in_flat_map in H. destruct H as ([n c y] & J & H). exists c, y. split; [exists i, n; auto|exact H].
  - intros (c & x & (i & n & I & C & H) & K). exists i. split; [exact I|]. rewrite C. apply in_flat_map. eexists. split; [exact H|exact K].
Qed.
Lemma code_in : forall s, hasServiceCode s = true <-> service_code s.
Proof.
  intros s. unfold hasServiceCode, service_code. rewrite existsb_exists. split.
  - intros (i & I & H). rewrite andb_true_iff, existsb_exists in H. destruct H as [R (o & O & H)]. exists i, o. split; [exact I|]. split; [destruct (f_role i); try discriminate R; reflexivity|]. split; [exact O|]. now destruct (n_nocode o).
  - intros (i & o & I & R & O & H). exists i. split; [exact I|]. rewrite R, andb_true_iff, existsb_exists. split; [reflexivity|]. exists o. rewrite H. auto.
Qed.

Lemma check_alias : forall a t, In (KAlias a) (check_keys t) <-> imported a = true /\ exists q, within (TyAlias a q) t.
Proof.
  assert (P : forall a p, ~ In (KAlias a) (prim_keys p)) by (intros a p; destruct p; cbn; intuition discriminate).
  intros a. induction t as [k|n|n|n|b k|o u IH|k o u IH]; cbn [ScafGenModel.check_keys]; try (split; [intros []|intros [_ [q W]]; inversion W]; fail).
  - split; [intro H; destruct (P _ _ H)|intros [_ [q W]]; inversion W].
  - split.
    + destruct (imported b) eqn:I; [|intros []]. intros [E|[]]. injection E as ->. split; [exact I|]. exists k. constructor.
    + intros [I [q W]]. inversion W; subst. rewrite I. left. reflexivity.
  - rewrite IH. split; intros [I [q W]]; (split; [exact I|]); exists q; [constructor; exact W|inversion W; subst; assumption].
  - rewrite in_app_iff, IH. split.
    + intros [H|[I [q W]]]; [destruct (P _ _ H)|]. split; [exact I|]. exists q. constructor. exact W.
    + intros [I [q W]]. right. split; [exact I|]. exists q. inversion W; subst; assumption.
Qed.
Lemma op_alias : forall a x, In (KAlias a) (op_keys imported x) <-> imported a = true /\ exists q, mentions x (TyAlias a q).
Proof.
  intros a x. assert (E : In (KAlias a) (op_keys imported x) <-> exists t, has_type x t /\ In (KAlias a) (check_keys t)).
  { assert (H : forall t, has_type x t <-> In t (in_types (o_in x)) \/ In t (out_types (o_out x))) by apply has_type_in.
    unfold op_keys. rewrite in_app_iff.
    assert (R : In (KAlias a) (result_keys imported (o_out x)) <-> exists t, In t (out_types (o_out x)) /\ In (KAlias a) (check_keys t)).
    { destruct (o_out x) as [|t|[t|]]; cbn [result_keys out_types In]; split; try (intros (u & [<-|[]] & K); right; exact K); try (intros (u & [] & _)); intros [Z|Z]; try discriminate Z; try (destruct Z; fail); eauto. }
    assert (I : In (KAlias a) (param_keys imported (o_in x)) <-> exists t, In t (in_types (o_in x)) /\ In (KAlias a) (check_keys t)).
    { destruct (o_in x) as [t|n l]; cbn [param_keys in_types].
      - split; [intro K; exists t; split; [left; reflexivity|exact K]|]. intros (u & [<-|[]] & K). exact K.
      - rewrite in_flat_map. split.
        + intros ([m [o t|t]] & J & K); cbn [snd] in K; exists t; (split; [apply in_map_iff; eexists; split; [|exact J]; reflexivity|]); [exact K|destruct K as [K|K]; [discriminate K|exact K]].
        + intros (t & T & K). apply in_map_iff in T. destruct T as ([m [o u|u]] & <- & J); eexists; (split; [exact J|]); cbn [snd] in *; [exact K|right; exact K]. }
    rewrite R, I. split.
    - intros [(t & T & K)|(t & T & K)]; exists t; (split; [apply H; auto|exact K]).
    - intros (t & T & K). apply H in T. destruct T as [T|T]; [right|left]; eauto. }
  rewrite E. unfold mentions. split.
  - intros (t & T & K). apply check_alias in K. destruct K as [I [q W]]. split; [exact I|]. exists q, t. auto.
  - intros [I (q & t & T & W)]. exists t. split; [exact T|]. apply check_alias. eauto.
Qed.

Lemma map_nodup : forall (A B : Type) (f : A -> B) l, NoDup l -> (NoDup (map f l) <-> forall a b, In a l -> In b l -> f a = f b -> a = b).
Proof.
  intros A B f l ND. split.
  - induction l as [|c l IH]; [intros _ a b []|]. cbn [map]. intros H a b Ia Ib E. inversion ND as [|? ? N1 N2]; subst. inversion H as [|? ? M1 M2]; subst.
    destruct Ia as [->|Ia], Ib as [->|Ib]; [reflexivity| | |exact (IH N2 M2 a b Ia Ib E)].
    + elim M1. rewrite E. apply in_map, Ib. + elim M1. rewrite <- E. apply in_map, Ia.
  - intros H. induction l as [|c l IH]; cbn [map]; [constructor|]. inversion ND as [|? ? N1 N2]; subst. constructor.
    + intro I. apply in_map_iff in I. destruct I as (d & E & I). apply N1. rewrite (H c d (or_introl eq_refl) (or_intror I) (eq_sym E)). exact I.
    + apply IH; [exact N2|]. intros a b Ia Ib. apply H; right; assumption.
Qed.
Lemma keys_apart : forall s, NoDup (map kp (nodup key_dec (found imported chosen s))) <-> apart chosen imported path s.
Proof.
  intros s. rewrite (map_nodup _ _ kp _ (NoDup_nodup key_dec _)). split.
  - intros H c d x y a b p q X Y Ia Ib Ma Mb E.
    assert (Q : KAlias a = KAlias b).
    { apply H; [| |cbn; congruence]; apply nodup_In, found_in; [exists c, x|exists d, y]; (split; [assumption|]); apply op_alias; eauto. }
    injection Q as Q. exact Q.
  - intros H k1 k2 I1 I2 E. apply nodup_In, found_in in I1, I2. destruct I1 as (c & x & X & I1), I2 as (d & y & Y & I2).
    destruct k1, k2; cbn in E; try discriminate E; try reflexivity. apply op_alias in I1, I2. destruct I1 as [Ia [p Ma]], I2 as [Ib [q Mb]].
    f_equal. injection E as E. exact (H c d x y a a0 p q X Y Ia Ib Ma Mb E).
Qed.

Theorem scaffold_file : forall s,
  good_imports (lines imported path chosen s) (named imported path chosen s) <->
  (forall i, In i (s_interfaces s) -> chosen i = false)
  \/ (service_code s /\ (exists x, to_write chosen s false x)
      /\ (forall x p, to_write chosen s true x -> about imported path x p -> exists y, to_write chosen s false y /\ about imported path y p)
      /\ apart chosen imported path s).
Proof.
  intros s. unfold good_imports, agree.
  assert (U : forall p, In p (named imported path chosen s) <-> exists x, to_write chosen s false x /\ (p = PContext \/ p = PErrors \/ about imported path x p)).
  { intros p. unfold named. rewrite in_flat_map. split; intros (x & I & H); exists x; [apply methods_in in I; apply method_in in H|split; [apply methods_in; exact I|apply method_in; exact H]]; auto. }
  assert (V : forall p, In p (map kp (nodup key_dec (found imported chosen s))) <-> exists c x, to_write chosen s c x /\ about imported path x p).
  { intros p. rewrite in_map_iff. split.
    - intros (k & <- & I). apply nodup_In, found_in in I. destruct I as (c & x & X & I). exists c, x. split; [exact X|]. apply op_pkgs, in_map, I.
    - intros (c & x & X & B). apply op_pkgs, in_map_iff in B. destruct B as (k & <- & I). exists k. split; [reflexivity|]. apply nodup_In, found_in. eauto. }
  unfold lines. destruct (existsb chosen (s_interfaces s)) eqn:C.
  - assert (NC : ~ forall i, In i (s_interfaces s) -> chosen i = false).
    { intros Z. apply existsb_exists in C. destruct C as (i & I & C). rewrite (Z i I) in C. discriminate C. }
    rewrite <- keys_apart, <- code_in. set (ks := map kp (nodup key_dec (found imported chosen s))) in *.
    assert (NK : forall p, p = PContext \/ p = PErrors -> ~ In p ks) by (intros p [->| ->] I; apply V in I; destruct I as (c & x & _ & B); exact B).
    split.
    + intros [ND H]. right.
      assert (W : exists x, to_write chosen s false x).
      { destruct (proj1 (U PErrors) (proj1 (H PErrors) ltac:(rewrite !in_app_iff; cbn; tauto))) as (x & I & _). eauto. }
      destruct W as (x0 & W).
      assert (HS : hasServiceCode s = true).
      { assert (Q : In PContext (named imported path chosen s)) by (apply U; exists x0; auto). apply H in Q. rewrite !in_app_iff in Q. destruct (hasServiceCode s); [reflexivity|].
        destruct Q as [[]|[[Q|[]]|Q]]; [discriminate Q|destruct (NK _ (or_introl eq_refl) Q)]. }
      split; [exact HS|]. split; [eauto|]. split.
      * intros x p X B. assert (Q : In p (named imported path chosen s)) by (apply H; rewrite !in_app_iff; right; right; apply V; eauto).
        apply U in Q. destruct Q as (y & Y & [->|[->|D]]); [destruct B|destruct B|eauto].
      * rewrite HS in ND. inversion ND as [|? ? _ ND1]. inversion ND1. assumption.
    + intros [Z|(HS & (x0 & W) & H & ND)]; [contradiction|]. rewrite HS. split.
      * cbn [app]. constructor; [intros [E|E]; [discriminate E|destruct (NK _ (or_introl eq_refl) E)]|]. constructor; [exact (NK _ (or_intror eq_refl))|exact ND].
      * intros p. rewrite U, !in_app_iff, V. split.
        -- intros [[<-|[]]|[[<-|[]]|([] & x & X & B)]]; [exists x0; tauto|exists x0; tauto|destruct (H x p X B) as (y & Y & D); exists y; tauto|exists x; tauto].
        -- intros (x & X & [->|[->|B]]); [left; left; reflexivity|right; left; left; reflexivity|right; right; exists false, x; auto].
  - assert (NC : forall i, In i (s_interfaces s) -> chosen i = false).
    { intros i I. destruct (chosen i) eqn:E; [|reflexivity]. rewrite <- C. symmetry. apply existsb_exists. eauto. }
    split; [intros _; left; exact NC|]. intros _. split; [constructor|]. intros p. rewrite U. split; [intros []|]. intros (x & (i & n & I & E & _) & _). rewrite (NC i I) in E. discriminate E.
Qed.
End Proofs.

Lemma result_types : forall x, scaffold_result (o_out x) = interface_result (o_out x) <-> ~ streams_out x.
Proof.
  intros [i r]. unfold streams_out. cbn [o_out]. destruct r as [|t|[t|]]; cbn.
  - split; [intros _ [u E]; discriminate E|reflexivity].
  - split; [intros _ [u E]; discriminate E|reflexivity].
  - split; [intros E; discriminate E|intro H; elim H; eauto].
  - split; [intros E; discriminate E|intro H; elim H; eauto].
Qed.
