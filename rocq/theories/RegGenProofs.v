(** Proofs about generated registrations. *)
From Coq Require Import List NArith Bool Lia.
From Verif Require Import Base OperationsModel InvokeModel InvokeSpec BootModel NamesModel NamesSpec GenModel OpGenModel OpGenSpec OpGenProofs RegGenModel RegGenSpec.
Import ListNotations.
Open Scope N_scope.

(** ** Styles *)
Lemma takes_iff : forall x, takes_stream x <-> streams (o_in x) <> [].
Proof.
  intros [i r]. unfold takes_stream. cbn [o_in]. destruct i as [t|n l]; cbn [streams].
  - split; [intros (n & l & m & t' & E & _); discriminate E|intros H; destruct (H eq_refl)].
  - split.
    + intros (n' & l' & m & t & E & I) Z. injection E as -> ->. apply (proj2 (no_stream_iff l')) in Z. exact (Z m t I).
    + intros Z. induction l as [|[m [o t|t]] l IH]; cbn [stream_params] in Z; [destruct (Z eq_refl)| |].
      * destruct (IH Z) as (n' & l' & m' & t' & E & I). injection E as <- <-. exists n, ((m, One o t) :: l), m', t'. split; [reflexivity|right; exact I].
      * exists n, ((m, Many t) :: l), m, t. split; [reflexivity|left; reflexivity].
Qed.
Lemma gives_iff : forall x, gives_stream x <-> is_stream (o_out x) = true.
Proof. intros [i r]. unfold gives_stream. cbn [o_out]. destruct r; cbn [is_stream]; split; intro H; try discriminate H; try (destruct H as [t' E]; discriminate E); try reflexivity. eexists. reflexivity. Qed.
Lemma style : forall x k, crosses x k <-> wrapper_style x = k.
Proof.
  intros x k. unfold wrapper_style, streamIn.
  assert (T : match streams (o_in x) with [] => ~ takes_stream x | _ => takes_stream x end).
  { pose proof (takes_iff x) as T. destruct (streams (o_in x)); [intro Q; apply T in Q; exact (Q eq_refl)|apply T; discriminate]. }
  assert (V : if is_stream (o_out x) then gives_stream x else ~ gives_stream x).
  { pose proof (gives_iff x) as V. destruct (is_stream (o_out x)); [apply V; reflexivity|intro Q; apply V in Q; discriminate Q]. }
  destruct (streams (o_in x)); destruct (is_stream (o_out x)); destruct k; cbn [crosses]; (split; intro H; [|try discriminate H]); try reflexivity; tauto.
Qed.
Lemma styles_agree : forall x, parts_type x = wrapper_style x /\ register_style x = wrapper_style x.
Proof. intros x. unfold parts_type, register_style, wrapper_style, streamIn. destruct (streams (o_in x)); destruct (is_stream (o_out x)); split; reflexivity. Qed.

(** ** Names *)
Lemma qualified_inj : forall i i' ns ns', ~ In 46 i -> ~ In 46 i' -> qualified ns i = qualified ns' i' -> ns = ns' /\ i = i'.
Proof.
  unfold qualified. intros i i' ns ns' H H' E.
  assert (K : forall (a b : bytes) i i', ~ In 46 i -> ~ In 46 i' -> i ++ 46 :: a = i' ++ 46 :: b -> i = i' /\ a = b).
  { clear. intros a b i. induction i as [|c i IH]; intros [|c' i'] H H' E; cbn in E.
    - injection E as E. split; [reflexivity|exact E].
    - injection E as E _. destruct H'. left. symmetry. exact E.
    - injection E as E _. destruct H. left. exact E.
    - injection E as -> E. destruct (IH i' (fun X => H (or_intror X)) (fun X => H' (or_intror X)) E) as [-> ->]. split; reflexivity. }
  apply (f_equal (@rev N)) in E. rewrite !rev_app_distr in E. cbn [rev] in E. rewrite <- !app_assoc in E. cbn [app] in E.
  destruct (K (rev ns) (rev ns') (rev i) (rev i') ltac:(rewrite <- in_rev; exact H) ltac:(rewrite <- in_rev; exact H') E) as [E1 E2].
  apply (f_equal (@rev N)) in E1, E2. rewrite !rev_involutive in E1, E2. split; assumption.
Qed.

(** ** What is registered *)
Section Reg.
Context {G : Type} (impl : bytes -> bytes -> G).
Lemma in_exported : forall k (l : list (icall G)) q o f, In ((q, o), f) (exported k l) <-> In (IExport k q o f) l.
Proof.
  intros k l q o f. unfold exported. rewrite in_flat_map. split.
  - intros [c [I J]]. destruct c as [k' ns op h|k' ns op]; [|contradiction]. destruct (ikind_eq k k') eqn:K; [|contradiction]. destruct J as [J|[]]. injection J as -> -> ->. assert (k = k') by (destruct k, k'; try discriminate K; reflexivity). subst k'. exact I.
  - intros I. eexists. split; [exact I|]. cbn. replace (ikind_eq k k) with true by (destruct k; reflexivity). left. reflexivity.
Qed.
Lemma in_imported : forall k (l : list (icall G)) q o, In (q, o) (imported k l) <-> In (IImport k q o) l.
Proof.
  intros k l q o. unfold imported. rewrite in_flat_map. split.
  - intros [c [I J]]. destruct c as [k' ns op h|k' ns op]; [contradiction|]. destruct (ikind_eq k k') eqn:K; [|contradiction]. destruct J as [J|[]]. injection J as -> ->. assert (k = k') by (destruct k, k'; try discriminate K; reflexivity). subst k'. exact I.
  - intros I. eexists. split; [exact I|]. cbn. replace (ikind_eq k k) with true by (destruct k; reflexivity). left. reflexivity.
Qed.
Lemma in_named : forall l seen d, In d (named l seen) <-> In d l /\ ~ In d seen.
Proof.
  induction l as [|n l IH]; intros seen d; cbn [named]; [cbn; tauto|].
  destruct (existsb _ seen) eqn:X.
  - rewrite IH. apply existsb_exists in X as [m [I E]]. destruct (list_eq_dec N.eq_dec m n) as [->|]; [|discriminate E]. cbn [In]. split; [tauto|]. intros [[->|A] B]; [contradiction|tauto].
  - assert (N1 : ~ In n seen). { intro I. assert (Y : existsb (fun m => if list_eq_dec N.eq_dec m n then true else false) seen = true); [|congruence]. apply existsb_exists. exists n. split; [exact I|]. destruct (list_eq_dec N.eq_dec n n); [reflexivity|contradiction]. }
    cbn [In]. rewrite IH. cbn [In]. split.
    + intros [->|[A B]]; [tauto|]. tauto.
    + intros [[->|A] B]; [tauto|]. destruct (list_eq_dec N.eq_dec n d); [tauto|]. right. split; [exact A|]. tauto.
Qed.
Lemma in_deps : forall s d, In d (dependencies s) <-> exists g, In g (s_interfaces s) /\ f_role g = Service /\ In d (f_uses g).
Proof.
  intros s d. unfold dependencies. rewrite in_named, in_flat_map. split.
  - intros [[g [I J]] _]. exists g. destruct (f_role g) eqn:R; cbn [isService] in J; try contradiction. tauto.
  - intros (g & I & R & J). split; [|intros []]. exists g. rewrite R. split; assumption.
Qed.
Lemma registered : forall s k q o f, In ((q, o), f) (exported k (registrations impl s)) <->
  exists i x, handles s i o x /\ crosses x k /\ q = s_name s ++ 46 :: i /\ f = Some (impl i o).
Proof.
  intros s k q o f. rewrite in_exported. unfold registrations, main. rewrite !in_app_iff, !in_flat_map. split.
  - intros [H|[H|H]].
    + unfold imported_funcs in H. apply in_flat_map in H as [[r d] [_ H]]. cbn [fst snd] in H. destruct (isProvider r); [|contradiction]. destruct H as [H|[]]. discriminate H.
    + destruct H as [d [_ H]]. apply in_flat_map in H as [i [_ H]]. destruct (isProvider _ && _); [|contradiction]. unfold NewProvider in H. apply in_map_iff in H as [x [H _]]. discriminate H.
    + destruct H as [i [I H]]. destruct (f_role i) eqn:R; cbn [isService] in H; try contradiction. unfold Register in H. rewrite R in H. cbn [isHandler] in H. apply in_flat_map in H as [[n c x] [J H]]. cbn [n_nocode n_name n_op] in H.
      destruct c; [contradiction|]. destruct H as [H|[]]. injection H as Hk <- <- <-. exists (f_name i), x. split; [|split; [apply style; rewrite <- (proj2 (styles_agree x)); exact Hk|split; reflexivity]].
      exists i, (mkOperation n false x). repeat split; assumption.
  - intros (i & x & (f0 & d & I & R & N0 & J & ->) & X & -> & ->). right. right. exists f0. split; [exact I|]. rewrite R. cbn [isService]. unfold Register. rewrite R. cbn [isHandler]. apply in_flat_map. eexists. split; [exact J|].
    cbn [n_nocode n_name n_op]. left. apply style in X. rewrite (proj2 (styles_agree x)), X, N0. reflexivity.
Qed.
Lemma asked_for : forall s k q o, In (q, o) (imported k (registrations impl s)) <->
  exists x, crosses x k /\ ((q = s_name s /\ calls_function s o x) \/ exists i, needs s i o x /\ q = s_name s ++ 46 :: i).
Proof.
  intros s k q o. rewrite in_imported. unfold registrations, main. rewrite !in_app_iff, !in_flat_map. split.
  - intros [H|[H|H]].
    + unfold imported_funcs in H. apply in_flat_map in H as [[r [n c x]] [I H]]. cbn [fst snd n_name n_op] in H. destruct r; cbn [isProvider] in H; try contradiction. destruct H as [H|[]]. injection H as Hk <- <-.
      exists x. split; [apply style; rewrite <- (proj1 (styles_agree x)); exact Hk|]. left. split; [reflexivity|]. exists c. exact I.
    + destruct H as [d [D H]]. apply in_flat_map in H as [i [I H]]. destruct (f_role i) eqn:R; cbn [isProvider andb] in H; try contradiction. destruct (list_eq_dec N.eq_dec (f_name i) d) as [E|]; [|contradiction].
      unfold NewProvider in H. apply in_map_iff in H as [[n c x] [H J]]. cbn [n_name n_op] in H. injection H as Hk <- <-. exists x. split; [apply style; rewrite <- (proj1 (styles_agree x)); exact Hk|].
      right. exists (f_name i). split; [|reflexivity]. apply in_deps in D as (g & Ig & Rg & Ug). exists g, i, c. rewrite E. repeat split; assumption.
    + destruct H as [i [I H]]. destruct (isService (f_role i)); [|contradiction]. unfold Register in H. destruct (isHandler (f_role i)); [|contradiction]. apply in_flat_map in H as [d [_ H]]. destruct (n_nocode d); [contradiction|]. destruct H as [H|[]]. discriminate H.
  - intros (x & X & [[-> [c I]]|(i & (g & f & c & Ig & Rg & Ug & If & Rf & N0 & J) & ->)]); apply style in X; rewrite <- (proj1 (styles_agree x)) in X.
    + left. unfold imported_funcs. apply in_flat_map. eexists. split; [exact I|]. cbn. left. rewrite X. reflexivity.
    + right. left. exists i. split; [apply in_deps; exists g; repeat split; assumption|]. apply in_flat_map. exists f. split; [exact If|]. rewrite Rf. cbn [isProvider andb]. destruct (list_eq_dec N.eq_dec (f_name f) i) as [|Z]; [|contradiction].
      unfold NewProvider. apply in_map_iff. eexists. split; [|exact J]. cbn [n_name n_op]. rewrite X, N0. reflexivity.
Qed.
End Reg.

(** ** Modules together *)
Section Together.
Context {G : Type}.
Lemma exports_handled : forall (ks : list (package G)) (ps : list (program G)), Forall2 made ks ps -> forall j kd q o f,
  exports ks j kd (q, o) f <-> exists ns i x g, handled ps j ns i o x g /\ crosses x kd /\ q = ns ++ 46 :: i /\ f = Some g.
Proof.
  intros ks ps M j kd q o f. unfold exports, handled. revert j. induction M as [|k p ks ps E M IH]; intros j.
  - split; [intros (k & E & _); destruct j; discriminate E|intros (ns & i & x & g & (p & E & _) & _); destruct j; discriminate E].
  - destruct j as [|j]; cbn [nth_error]; [|apply IH]. unfold made in E. split.
    + intros (k0 & E0 & H). injection E0 as <-. rewrite E in H.
      apply registered in H as (i & x & A & B & -> & ->). exists (s_name (g_space p)), i, x, (g_impl p i o). split; [exists p; repeat split; exact A|]. repeat split; exact B.
    + intros (ns & i & x & g & (p0 & E0 & <- & A & ->) & B & -> & ->). injection E0 as <-. exists k. split; [reflexivity|]. rewrite E. apply registered. exists i, x. repeat split; assumption.
Qed.
Lemma made_nth : forall (ks : list (package G)) (ps : list (program G)) n k p, Forall2 made ks ps -> nth_error ks n = Some k -> nth_error ps n = Some p -> k_calls k = registrations (g_impl p) (g_space p).
Proof.
  intros ks ps n k p M. revert n. induction M as [|k0 p0 ks ps E M IH]; intros [|n] A B; cbn in A, B; try discriminate A; [|exact (IH n A B)]. injection A as <-. injection B as <-. exact E.
Qed.
(** What the operation's name leads to. *)
Lemma meets : forall kd0 (ks : list (package G)) (ps : list (program G)) n k p i o x, Forall2 made ks ps -> Forall (fun p => undotted (g_space p)) ps ->
  nth_error ks n = Some k -> nth_error ps n = Some p -> needs (g_space p) i o x -> crosses x kd0 -> (forall j x' g, handled ps j (s_name (g_space p)) i o x' g -> crosses x' kd0) ->
  In (qualified (s_name (g_space p)) i, o) (imported kd0 (k_calls k))
  /\ (forall j kd f, exports ks j kd (qualified (s_name (g_space p)) i, o) f -> exists x' g, handled ps j (s_name (g_space p)) i o x' g /\ kd = kd0 /\ f = Some g)
  /\ (kd0 = RR -> NamesSpec.plain ks (qualified (s_name (g_space p)) i, o)).
Proof.
  intros kd0 ks ps n k p i o x M U Ek Ep Nd X Agree.
  set (ns := s_name (g_space p)) in *.
  assert (Mk : k_calls k = registrations (g_impl p) (g_space p)) by (eapply made_nth; eassumption).
  assert (Ix : In (qualified ns i, o) (imported kd0 (k_calls k))).
  { rewrite Mk. apply asked_for. exists x. split; [exact X|]. right. exists i. split; [exact Nd|reflexivity]. }
  assert (Ui : ~ In 46 i). { rewrite Forall_forall in U. destruct Nd as (g & f & c0 & _ & _ & _ & If & _ & <- & _). exact (U p (nth_error_In _ _ Ep) f If). }
  assert (W : forall j kd f, exports ks j kd (qualified ns i, o) f -> exists x' g, handled ps j ns i o x' g /\ kd = kd0 /\ f = Some g).
  { intros j kd f H. apply (exports_handled ks ps M) in H as (ns' & i' & x' & g & H & K & Q & ->).
    assert (Q' : ns = ns' /\ i = i').
    { apply qualified_inj; [exact Ui| |exact Q]. destruct H as (p' & Ep' & _ & (f & d & If & _ & <- & _) & _). rewrite Forall_forall in U. exact (U p' (nth_error_In _ _ Ep') f If). }
    destruct Q' as [<- <-]. exists x', g. split; [exact H|]. split; [|reflexivity]. pose proof (Agree j x' g H) as K'. apply style in K, K'. congruence. }
  assert (P : kd0 = RR -> NamesSpec.plain ks (qualified ns i, o)). { intros -> j kd f H. apply W in H as (x' & g & _ & -> & ->). split; [reflexivity|discriminate]. }
  split; [exact Ix|split; [exact W|exact P]].
Qed.
End Together.
