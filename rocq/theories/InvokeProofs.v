(** Proofs about the registries of go/invoke. *)
From Coq Require Import List NArith ZArith Lia Bool ZifyBool ZifyNat ZifyN.
From Verif Require Import Base BaseLemmas OperationsModel OperationsSpec OperationsProofs InvokeModel InvokeSpec.
Import ListNotations.
Open Scope N_scope.

Section Handlers.
Context {H : Type}.
Notation tables := (tables H).
Notation icall := (icall H).

Definition imports_of (k : ikind) (t : tables) : list info :=
  match k with RR => rr_imports t | FNF => fnf_imports t | RS => rs_imports t | RC => rc_imports t end.
Definition info_of (k : ikind) (t : tables) : list info :=
  match k with RR => rr_info t | FNF => fnf_info t | RS => rs_info t | RC => rc_info t end.
Definition handlers_of (k : ikind) (t : tables) : list (option H) :=
  match k with RR => rr_handlers t | FNF => fnf_handlers t | RS => rs_handlers t | RC => rc_handlers t end.

Lemma ikind_eq_iff : forall a b, ikind_eq a b = true <-> a = b.
Proof. intros [] []; cbn; split; congruence. Qed.
Lemma info_eq_iff : forall a b, info_eq a b = true <-> a = b.
Proof.
  intros [a1 a2] [b1 b2]. unfold info_eq. cbn [fst snd]. rewrite andb_true_iff, !bytes_equal_iff. split; [intros [-> ->]; reflexivity|intro E; injection E; auto].
Qed.

(** ** firsts *)
Lemma firsts_after_snoc : forall l seen x, firsts_after seen (l ++ [x]) = firsts_after seen l ++ (if in_dec info_dec x (seen ++ l) then [] else [x]).
Proof.
  induction l as [|y l IH]; intros seen x; cbn [app firsts_after].
  - rewrite app_nil_r. destruct (in_dec info_dec x seen); reflexivity.
  - destruct (in_dec info_dec y seen) as [Hy|Hy].
    + rewrite IH. f_equal. destruct (in_dec info_dec x (seen ++ l)) as [A|A], (in_dec info_dec x (seen ++ y :: l)) as [B|B]; try reflexivity; exfalso.
      * apply B. rewrite in_app_iff in *. cbn. tauto.
      * apply A. rewrite in_app_iff in *. cbn in B. destruct B as [B|[B|B]]; [auto|subst; auto|auto].
    + cbn [app]. f_equal. rewrite IH. f_equal. destruct (in_dec info_dec x ((y :: seen) ++ l)) as [A|A], (in_dec info_dec x (seen ++ y :: l)) as [B|B]; try reflexivity; exfalso.
      * apply B. rewrite in_app_iff in *. cbn in *. tauto.
      * apply A. rewrite in_app_iff in *. cbn in *. tauto.
Qed.
Lemma firsts_snoc : forall l x, firsts (l ++ [x]) = firsts l ++ (if in_dec info_dec x l then [] else [x]).
Proof. intros. unfold firsts. rewrite firsts_after_snoc. reflexivity. Qed.
Lemma firsts_in : forall l x, In x (firsts l) <-> In x l.
Proof.
  intros l. induction l as [|y l IH] using rev_ind; intros x; [reflexivity|]. rewrite firsts_snoc, !in_app_iff, IH. destruct (in_dec info_dec y l); cbn; [|tauto].
  split; [tauto|]. intros [A|[<-|[]]]; auto.
Qed.
Lemma firsts_nodup : forall l, NoDup (firsts l).
Proof.
  intros l. induction l as [|y l IH] using rev_ind; [constructor|]. rewrite firsts_snoc. destruct (in_dec info_dec y l) as [Hy|Hy].
  - rewrite app_nil_r. exact IH.
  - apply NoDup_rev in IH. rewrite <- (rev_involutive (firsts l ++ [y])). apply NoDup_rev. rewrite rev_app_distr. cbn [rev app]. constructor; [|exact IH].
    rewrite <- in_rev. rewrite firsts_in. exact Hy.
Qed.
Lemma firsts_len : forall l, (length (firsts l) <= length l)%nat.
Proof. intros l. induction l as [|y l IH] using rev_ind; [auto|]. rewrite firsts_snoc, !app_length. destruct (in_dec info_dec y l); cbn; lia. Qed.

(** ** Imports *)
Lemma find_import_none : forall l x i, find_import l x i = None <-> ~ In x l.
Proof.
  induction l as [|y l IH]; intros x i; cbn [find_import In]; [tauto|]. destruct (info_eq y x) eqn:E.
  - apply info_eq_iff in E. split; [discriminate|intro X; exfalso; auto].
  - rewrite IH. assert (y <> x) by (intro X; apply info_eq_iff in X; congruence). tauto.
Qed.
Lemma find_import_some : forall l x i n, find_import l x i = Some n -> exists p, n = u32 (i + N.of_nat p) /\ nth_error l p = Some x.
Proof.
  induction l as [|y l IH]; intros x i n E; cbn [find_import] in E; [discriminate|]. destruct (info_eq y x) eqn:F.
  - injection E as <-. exists 0%nat. apply info_eq_iff in F. subst. rewrite N.add_0_r. auto.
  - apply IH in E as (p & -> & E). exists (S p). split; [f_equal; lia|exact E].
Qed.
Lemma find_import_app : forall l l' x i n, find_import l x i = Some n -> find_import (l ++ l') x i = Some n.
Proof.
  induction l as [|y l IH]; intros l' x i n E; cbn [find_import app] in *; [discriminate|]. destruct (info_eq y x); [exact E|]. apply IH. exact E.
Qed.
Lemma find_import_last : forall l x i, ~ In x l -> find_import (l ++ [x]) x i = Some (u32 (i + len l)).
Proof.
  induction l as [|y l IH]; intros x i Hx; cbn [find_import app].
  - assert (E : info_eq x x = true) by (apply info_eq_iff; reflexivity). rewrite E. cbn. rewrite N.add_0_r. reflexivity.
  - destruct (info_eq y x) eqn:E; [apply info_eq_iff in E; subst; exfalso; apply Hx; left; reflexivity|]. rewrite IH by (intro X; apply Hx; right; exact X). rewrite len_cons. f_equal. f_equal. lia.
Qed.

Lemma import_imports : forall k k' ns op t, imports_of k (snd (import k' ns op t)) = if ikind_eq k k' then snd (import_in (imports_of k t) (ns, op)) else imports_of k t.
Proof. intros [] [] ns op []; cbn; try reflexivity; destruct (import_in _ _); reflexivity. Qed.
Lemma import_index : forall k ns op t, fst (import k ns op t) = fst (import_in (imports_of k t) (ns, op)).
Proof. intros [] ns op []; cbn; destruct (import_in _ _); reflexivity. Qed.
Lemma import_other : forall k k' ns op t, info_of k (snd (import k' ns op t)) = info_of k t /\ handlers_of k (snd (import k' ns op t)) = handlers_of k t.
Proof. intros [] [] ns op []; cbn; destruct (import_in _ _); split; reflexivity. Qed.
Lemma export_imports : forall k k' ns op h t, imports_of k (export k' ns op h t) = imports_of k t.
Proof. intros [] [] ns op h []; reflexivity. Qed.
Lemma export_own : forall k k' ns op h t, info_of k (export k' ns op h t) = info_of k t ++ (if ikind_eq k k' then [(ns, op)] else [])
  /\ handlers_of k (export k' ns op h t) = handlers_of k t ++ (if ikind_eq k k' then [h] else []).
Proof. intros [] [] ns op h []; cbn; rewrite ?app_nil_r; split; reflexivity. Qed.

Lemma irun_snoc : forall (h : list icall) c, irun (h ++ [c]) = istep (irun h) c.
Proof. intros. unfold irun. rewrite fold_left_app. reflexivity. Qed.

Lemma irun_imports : forall (h : list icall) k, imports_of k (irun h) = firsts (imported k h).
Proof.
  intros h k. induction h as [|c h IH] using rev_ind; [destruct k; reflexivity|]. rewrite irun_snoc. unfold imported. rewrite flat_map_app. fold (imported k h). cbn [flat_map]. rewrite app_nil_r.
  destruct c as [k' ns op f|k' ns op]; cbn [istep].
  - rewrite export_imports, IH, app_nil_r. reflexivity.
  - rewrite import_imports, IH. destruct (ikind_eq k k'); [|rewrite app_nil_r; reflexivity]. rewrite firsts_snoc. unfold import_in.
    destruct (find_import (firsts (imported k h)) (ns, op) 0) eqn:E; cbn [snd].
    + destruct (in_dec info_dec (ns, op) (imported k h)) as [A|A]; [rewrite app_nil_r; reflexivity|]. exfalso. apply A. apply firsts_in.
      apply find_import_some in E as (p & _ & E). exact (nth_error_In _ _ E).
    + apply find_import_none in E. rewrite firsts_in in E. destruct (in_dec info_dec (ns, op) (imported k h)); [contradiction|reflexivity].
Qed.

Lemma index_of_eq : forall (h : list icall) k x, index_of h k x = fst (import_in (firsts (imported k h)) x).
Proof. intros h k [ns op]. unfold index_of. cbn [fst snd]. rewrite import_index, irun_imports. reflexivity. Qed.

Lemma imported_app : forall k (a b : list icall), imported k (a ++ b) = imported k a ++ imported k b.
Proof. intros. apply flat_map_app. Qed.
Lemma firsts_app : forall l l', exists m, firsts (l ++ l') = firsts l ++ m.
Proof.
  intros l l'. induction l' as [|x l' [m IH]] using rev_ind; [exists []; rewrite !app_nil_r; reflexivity|]. rewrite app_assoc, firsts_snoc, IH, <- app_assoc. eexists. reflexivity.
Qed.

Theorem stable_proof : forall (h h' : list icall) k x, index_of (h ++ IImport k (fst x) (snd x) :: h') k x = index_of h k x.
Proof.
  intros h h' k x. rewrite !index_of_eq. replace (h ++ IImport k (fst x) (snd x) :: h') with ((h ++ [IImport k (fst x) (snd x)]) ++ h') by (rewrite <- app_assoc; reflexivity).
  rewrite imported_app. destruct (firsts_app (imported k (h ++ [IImport k (fst x) (snd x)])) (imported k h')) as [m E]. rewrite E.
  rewrite imported_app. cbn [imported flat_map]. assert (R : ikind_eq k k = true) by (apply ikind_eq_iff; reflexivity). rewrite R, app_nil_r, <- surjective_pairing, firsts_snoc.
  unfold import_in. destruct (in_dec info_dec x (imported k h)) as [A|A].
  - rewrite app_nil_r. destruct (find_import (firsts (imported k h)) x 0) eqn:F.
    + rewrite (find_import_app _ _ _ _ _ F). reflexivity.
    + exfalso. apply find_import_none in F. apply F. apply firsts_in. exact A.
  - assert (A' : ~ In x (firsts (imported k h))) by (rewrite firsts_in; exact A). assert (F := find_import_last _ _ 0 A'). rewrite (find_import_app _ m _ _ _ F).
    apply (find_import_none _ _ 0) in A'. rewrite A'. reflexivity.
Qed.

Lemma flat_map_len : forall A B (f : A -> list B) l, (forall x, length (f x) <= 1)%nat -> len (flat_map f l) <= len l.
Proof.
  intros A B f l Hf. unfold len. enough (length (flat_map f l) <= length l)%nat by lia. induction l as [|x l IH]; [auto|]. cbn [flat_map]. rewrite app_length. cbn [length]. specialize (Hf x). lia.
Qed.
Lemma imported_len : forall k (h : list icall), len (imported k h) <= len h.
Proof. intros k h. apply flat_map_len. intros [|k' ? ?]; [|destruct (ikind_eq k k')]; cbn; auto. Qed.

Lemma firsts_small : forall k (h : list icall), few h -> len (firsts (imported k h)) < 2^32.
Proof. intros k h F. unfold few in F. assert (A := firsts_len (imported k h)). assert (B := imported_len k h). change (2^32) with 4294967296 in *. unfold len, info in *. lia. Qed.

Theorem position_proof : forall (h : list icall) k x, few h -> In x (imported k h) -> nth_error (firsts (imported k h)) (N.to_nat (index_of h k x)) = Some x.
Proof.
  intros h k x F I. assert (S := firsts_small k h F). rewrite index_of_eq. unfold import_in. destruct (find_import (firsts (imported k h)) x 0) eqn:E.
  - apply find_import_some in E as (p & -> & E). assert (P : (p < length (firsts (imported k h)))%nat) by (apply nth_error_Some; congruence). cbn [fst].
    unfold u32. rewrite N.add_0_l, N.mod_small by (unfold len in S; lia). rewrite Nat2N.id. exact E.
  - exfalso. apply find_import_none in E. apply E. apply firsts_in. exact I.
Qed.

Theorem fresh_proof : forall (h : list icall) k x, few h -> ~ In x (imported k h) -> index_of h k x = len (firsts (imported k h)).
Proof.
  intros h k x F I. assert (S := firsts_small k h F). rewrite index_of_eq. unfold import_in. destruct (find_import (firsts (imported k h)) x 0) eqn:E.
  - exfalso. apply find_import_some in E as (p & _ & E). apply I. apply firsts_in. exact (nth_error_In _ _ E).
  - cbn [fst]. unfold u32. apply N.mod_small. exact S.
Qed.

Theorem unambiguous_proof : forall (h : list icall) k x y, few h -> In x (imported k h) -> In y (imported k h) -> index_of h k x = index_of h k y -> x = y.
Proof.
  intros h k x y F I J E. assert (A := position_proof h k x F I). assert (B := position_proof h k y F J). rewrite E in A. congruence.
Qed.

(** ** Exports *)
Lemma irun_exports : forall (h : list icall) k, info_of k (irun h) = map fst (exported k h) /\ handlers_of k (irun h) = map snd (exported k h).
Proof.
  intros h k. induction h as [|c h [IH1 IH2]] using rev_ind; [destruct k; split; reflexivity|]. rewrite irun_snoc. unfold exported. rewrite flat_map_app. fold (exported k h). rewrite !map_app.
  cbn [flat_map]. rewrite app_nil_r. destruct c as [k' ns op f|k' ns op]; cbn [istep].
  - destruct (export_own k k' ns op f (irun h)) as [-> ->]. rewrite IH1, IH2. destruct (ikind_eq k k'); split; reflexivity.
  - destruct (import_other k k' ns op (irun h)) as [-> ->]. rewrite IH1, IH2. cbn [map]. rewrite !app_nil_r. split; reflexivity.
Qed.

Lemma exported_len : forall k (h : list icall), len (exported k h) <= len h.
Proof. intros k h. apply flat_map_len. intros [k' ? ? ?|]; [destruct (ikind_eq k k')|]; cbn; auto. Qed.

Lemma get_handler_eq : forall k t id, get_handler k t id = get_from (handlers_of k t) id.
Proof. intros [] t id; reflexivity. Qed.

Theorem lookup_proof : forall (h : list icall) k id, few h ->
  get_handler k (irun h) id = Ret (match nth_error (exported k h) (N.to_nat id) with Some (_, f) => f | None => None end).
Proof.
  intros h k id F. rewrite get_handler_eq. destruct (irun_exports h k) as [_ ->]. assert (L := exported_len k h). unfold few in F. unfold get_from.
  assert (LM : len (map snd (exported k h)) = len (exported k h)) by (unfold len; rewrite map_length; reflexivity). rewrite LM.
  unfold u32. rewrite N.mod_small by lia. rewrite nth_error_map. destruct (N.leb_spec (len (exported k h)) id).
  - assert (E : nth_error (exported k h) (N.to_nat id) = None) by (apply nth_error_None; unfold len in *; lia). rewrite E. reflexivity.
  - destruct (nth_error (exported k h) (N.to_nat id)) as [[i f]|] eqn:E; [reflexivity|]. apply nth_error_None in E. unfold len in *. lia.
Qed.

Lemma convert_nth : forall l i ty dir p, nth_error (convert_from i l ty dir) p = option_map (fun x => mkOp (u32 (i + N.of_nat p)) ty dir (fst x) (snd x)) (nth_error l p).
Proof.
  induction l as [|[ns op] l IH]; intros i ty dir p; [destruct p; reflexivity|]. destruct p as [|p]; cbn [convert_from nth_error].
  - cbn [option_map fst snd]. rewrite N.add_0_r. reflexivity.
  - rewrite IH. destruct (nth_error l p); [|reflexivity]. cbn [option_map]. do 2 f_equal. f_equal. lia.
Qed.
Lemma convert_in : forall l ty dir o, len l < 2^32 -> (In o (convertOperations l ty dir) <->
  op_type o = ty /\ op_dir o = dir /\ nth_error l (N.to_nat (op_index o)) = Some (op_ns o, op_name o)).
Proof.
  intros l ty dir o L. split.
  - intro I. apply In_nth_error in I as [p E]. unfold convertOperations in E. rewrite convert_nth in E. destruct (nth_error l p) as [[ns op]|] eqn:F; [|discriminate]. injection E as <-. cbn [op_type op_dir op_index op_ns op_name fst snd].
    assert (P : (p < length l)%nat) by (apply nth_error_Some; congruence). unfold u32. rewrite N.mod_small by (unfold len in L; lia). rewrite Nat2N.id. auto.
  - intros (A & B & C). assert (P : (N.to_nat (op_index o) < length l)%nat) by (apply nth_error_Some; congruence). apply nth_error_In with (N.to_nat (op_index o)). unfold convertOperations. rewrite convert_nth, C.
    cbn [option_map fst snd]. rewrite N.add_0_l, N2Nat.id. unfold u32. rewrite N.mod_small by (unfold len in L; lia). destruct o as [i t d ns nm]. cbn in *. subst. reflexivity.
Qed.

Lemma operation_list_in : forall (t : tables) o, (forall k, len (info_of k t) < 2^32 /\ len (imports_of k t) < 2^32) -> (In o (operation_list t) <->
  (exists k, op_type o = type_no k /\ op_dir o = ExportDir /\ nth_error (info_of k t) (N.to_nat (op_index o)) = Some (op_ns o, op_name o)) \/
  (exists k, op_type o = type_no k /\ op_dir o = ImportDir /\ nth_error (imports_of k t) (N.to_nat (op_index o)) = Some (op_ns o, op_name o))).
Proof.
  intros t o L. unfold operation_list. rewrite !in_app_iff.
  rewrite !convert_in by (first [apply (L RR)|apply (L FNF)|apply (L RS)|apply (L RC)]). split.
  - intros [A|[A|[A|[A|[A|[A|[A|A]]]]]]]; [left; exists RR|left; exists FNF|left; exists RS|left; exists RC|right; exists RR|right; exists FNF|right; exists RS|right; exists RC]; exact A.
  - intros [[[] A]|[[] A]]; cbn [info_of imports_of type_no] in A; tauto.
Qed.

Theorem advertised_exports_proof : forall (h : list icall) k i ns op, few h ->
  (In (mkOp i (type_no k) ExportDir ns op) (operation_list (irun h)) <-> exists f, nth_error (exported k h) (N.to_nat i) = Some ((ns, op), f)).
Proof.
  intros h k i ns op F. rewrite operation_list_in.
  2: { intro k'. rewrite irun_imports. destruct (irun_exports h k') as [-> _]. split; [|apply firsts_small; exact F]. assert (L := exported_len k' h). unfold few in F. unfold len in *. rewrite map_length. lia. }
  cbn [op_type op_dir op_index op_ns op_name]. split.
  - intros [(k' & A & _ & B)|(k' & _ & A & _)]; [|discriminate A]. assert (k' = k) as -> by (destruct k, k'; cbn in A; congruence).
    destruct (irun_exports h k) as [E _]. rewrite E, nth_error_map in B. destruct (nth_error (exported k h) (N.to_nat i)) as [[x f]|]; [|discriminate]. injection B as ->. exists f. reflexivity.
  - intros [f E]. left. exists k. repeat split. destruct (irun_exports h k) as [-> _]. rewrite nth_error_map, E. reflexivity.
Qed.

Theorem advertised_imports_proof : forall (h : list icall) k i ns op, few h ->
  (In (mkOp i (type_no k) ImportDir ns op) (operation_list (irun h)) <-> In (ns, op) (imported k h) /\ i = index_of h k (ns, op)).
Proof.
  intros h k i ns op F. rewrite operation_list_in.
  2: { intro k'. rewrite irun_imports. destruct (irun_exports h k') as [-> _]. split; [|apply firsts_small; exact F]. assert (L := exported_len k' h). unfold few in F. unfold len in *. rewrite map_length. lia. }
  cbn [op_type op_dir op_index op_ns op_name]. split.
  - intros [(k' & _ & A & _)|(k' & A & _ & B)]; [discriminate A|]. assert (k' = k) as -> by (destruct k, k'; cbn in A; congruence).
    rewrite irun_imports in B. assert (I : In (ns, op) (imported k h)) by (apply firsts_in; exact (nth_error_In _ _ B)). split; [exact I|].
    assert (P := position_proof h k (ns, op) F I). assert (X : N.to_nat i = N.to_nat (index_of h k (ns, op))).
    { apply (proj1 (NoDup_nth_error (firsts (imported k h))) (firsts_nodup _)); [apply nth_error_Some; unfold info in *; rewrite B; discriminate|unfold info in *; rewrite B, P; reflexivity]. } lia.
  - intros [I ->]. right. exists k. repeat split. rewrite irun_imports. apply position_proof; assumption.
Qed.

Theorem unadvertised_proof : forall (h : list icall) k i, few h -> (forall ns op, ~ In (mkOp i (type_no k) ExportDir ns op) (operation_list (irun h))) ->
  get_handler k (irun h) i = Ret None.
Proof.
  intros h k i F A. rewrite lookup_proof by exact F. destruct (nth_error (exported k h) (N.to_nat i)) as [[[ns op] f]|] eqn:E; [|reflexivity].
  exfalso. apply (A ns op). apply advertised_exports_proof; [exact F|]. exists f. exact E.
Qed.

(** The peer that decodes the list sees the same table. *)
Definition names_ok (h : list icall) : Prop :=
  Forall (fun c => match c with IExport _ ns op _ | IImport _ ns op => wf ns /\ wf op /\ len ns <= 65535 /\ len op <= 65535 end) h.

Lemma operation_list_range : forall h, few h -> names_ok h -> Forall op_in_range (operation_list (irun h)) /\ Forall names_fit (operation_list (irun h)).
Proof.
  intros h F N.
  assert (X : forall o, In o (operation_list (irun h)) -> op_in_range o /\ names_fit o).
  2: { split; apply Forall_forall; intros o I; apply X; exact I. }
  intros o I. apply operation_list_in in I.
  2: { intro k'. rewrite irun_imports. destruct (irun_exports h k') as [-> _]. split; [|apply firsts_small; exact F]. assert (L := exported_len k' h). unfold few in F. unfold len in *. rewrite map_length. lia. }
  assert (NE : forall k x f, In (x, f) (exported k h) -> wf (fst x) /\ wf (snd x) /\ len (fst x) <= 65535 /\ len (snd x) <= 65535).
  { intros k x f J. unfold exported in J. apply in_flat_map in J as (c & J1 & J2). unfold names_ok in N. rewrite Forall_forall in N. specialize (N c J1). destruct c as [k' ns op g|]; [|destruct J2].
    destruct (ikind_eq k k'); [|destruct J2]. destruct J2 as [J2|[]]. injection J2 as <- _. exact N. }
  assert (NI : forall k x, In x (imported k h) -> wf (fst x) /\ wf (snd x) /\ len (fst x) <= 65535 /\ len (snd x) <= 65535).
  { intros k x J. unfold imported in J. apply in_flat_map in J as (c & J1 & J2). unfold names_ok in N. rewrite Forall_forall in N. specialize (N c J1). destruct c as [|k' ns op]; [destruct J2|].
    destruct (ikind_eq k k'); [|destruct J2]. destruct J2 as [<-|[]]. exact N. }
  assert (T : forall k, type_no k < 256) by (intros []; reflexivity). unfold few in F.
  destruct I as [(k & A & B & C)|(k & A & B & C)].
  - destruct (irun_exports h k) as [E _]. rewrite E, nth_error_map in C. destruct (nth_error (exported k h) (N.to_nat (op_index o))) as [[x f]|] eqn:G; [|discriminate]. injection C as ->.
    destruct (NE _ _ _ (nth_error_In _ _ G)) as (W1 & W2 & W3 & W4). cbn [fst snd] in *. assert (P : (N.to_nat (op_index o) < length (exported k h))%nat) by (apply nth_error_Some; congruence).
    assert (L := exported_len k h). unfold op_in_range, names_fit. rewrite A, B. unfold ExportDir. specialize (T k). unfold len in L, F. repeat split; auto; lia.
  - rewrite irun_imports in C. destruct (NI k (op_ns o, op_name o)) as (W1 & W2 & W3 & W4); [apply firsts_in; exact (nth_error_In _ _ C)|]. cbn [fst snd] in *.
    assert (P : (N.to_nat (op_index o) < length (firsts (imported k h)))%nat) by (apply nth_error_Some; congruence). assert (L := firsts_small k h F).
    unfold op_in_range, names_fit. rewrite A, B. unfold ImportDir. specialize (T k). unfold len in L. repeat split; auto; lia.
Qed.

Theorem published_proof : forall h, few h -> names_ok h -> table_size (operation_list (irun h)) < 2^32 ->
  exists bs, OperationList (irun h) = Ret bs /\ FromBytes bs = Ret (operation_list (irun h)).
Proof.
  intros h F N S. destruct (operation_list_range h F N) as [R Q]. exact (proj2 (round_trip_iff (operation_list (irun h)) R S) Q).
Qed.
End Handlers.

(** ** Live instances *)
Section Instances.
Context {T : Type}.

Lemma has_in : forall a (s : live T), has a s = true <-> In a (l_keys s).
Proof.
  intros a s. unfold has. rewrite existsb_exists. split.
  - intros (x & I & E). apply N.eqb_eq in E. subst. exact I.
  - intro I. exists a. split; [exact I|apply N.eqb_refl].
Qed.
Lemma lrun_snoc : forall w (h : list (lcall T)) c, lrun w (h ++ [c]) = fst (lstep w (lrun w h) c).
Proof. intros. unfold lrun. rewrite fold_left_app. reflexivity. Qed.

(** What one call does to one handle. *)
Lemma lstep_has : forall w (s : live T) c a, has a (fst (lstep w s c)) =
  match c with LPut _ x => (a =? x) || has a s | LGet _ => has a s | LRemove id => negb (a =? id mod 2 ^ w) && has a s end.
Proof.
  intros w s c a. destruct c as [inst x|id|id]; cbn [lstep fst].
  - destruct (has x s) eqn:E; unfold has in *; cbn [l_keys existsb]; [|reflexivity]. destruct (a =? x) eqn:F; [apply N.eqb_eq in F; subst; rewrite E; reflexivity|reflexivity].
  - reflexivity.
  - assert (X : has a (mkLive (filter (fun x => negb (x =? id mod 2 ^ w)) (l_keys s)) (l_mem s)) = negb (a =? id mod 2 ^ w) && has a s).
    { apply eq_true_iff_eq. rewrite andb_true_iff, !has_in. cbn [l_keys]. rewrite filter_In. tauto. }
    destruct (has (id mod 2 ^ w) s) eqn:E; [exact X|]. destruct (a =? id mod 2 ^ w) eqn:F; [|reflexivity]. apply N.eqb_eq in F. subst. cbn [fst]. rewrite E. reflexivity.
Qed.
Lemma lstep_mem : forall w (s : live T) c a, l_mem (fst (lstep w s c)) a = match c with LPut inst x => if a =? x then Some inst else l_mem s a | _ => l_mem s a end.
Proof. intros w s c a. destruct c as [inst x|id|id]; cbn [lstep fst]; try reflexivity. destruct (has (id mod 2 ^ w) s); reflexivity. Qed.

Lemma found_eq : forall w (h : list (lcall T)) id, found w h id = if has (id mod 2 ^ w) (lrun w h) then l_mem (lrun w h) (id mod 2 ^ w) else None.
Proof. reflexivity. Qed.

(** The last call touching a handle decides. *)
Theorem get_exact_proof : forall w (h : list (lcall T)) id, found w h id = last_word w h id.
Proof.
  intros w h id. rewrite found_eq. unfold last_word. induction h as [|c h IH] using rev_ind; [reflexivity|]. rewrite lrun_snoc, lstep_has, lstep_mem, fold_left_app. cbn [fold_left].
  destruct c as [inst x|i|i]; cbn [word].
  - destruct (id mod 2 ^ w =? x); [reflexivity|exact IH].
  - exact IH.
  - destruct (id mod 2 ^ w =? i mod 2 ^ w); [reflexivity|exact IH].
Qed.

Lemma word_keep : forall w p (h : list (lcall T)) o, (forall c, In c h -> word w p o c = o) -> fold_left (word w p) h o = o.
Proof. intros w p h o. induction h as [|c h IH]; intro K; [reflexivity|]. cbn [fold_left]. rewrite (K c (or_introl eq_refl)). apply IH. intros c' I. apply K. right. exact I. Qed.

Lemma fair_app : forall w (h : list (lcall T)) s h', fair_from w s (h ++ h') -> fair_from w (fold_left (fun s c => fst (lstep w s c)) h s) h'.
Proof. intros w h. induction h as [|c h IH]; intros s h' F; [exact F|]. destruct F as [_ F]. exact (IH _ _ F). Qed.

(** While a handle is live, a fair allocator does not store through it. *)
Lemma live_kept : forall w (h : list (lcall T)) s a, fair_from w s h -> has a s = true -> a < 2 ^ w ->
  (forall i, In (LRemove i) h -> i mod 2 ^ w <> a) ->
  has a (fold_left (fun s c => fst (lstep w s c)) h s) = true /\ l_mem (fold_left (fun s c => fst (lstep w s c)) h s) a = l_mem s a.
Proof.
  intros w h. induction h as [|c h IH]; intros s a F L B K; [split; [exact L|reflexivity]|]. cbn [fold_left]. destruct F as [Fc F].
  assert (L1 : has a (fst (lstep w s c)) = true).
  { rewrite lstep_has. destruct c as [inst x|i|i]; [rewrite L; apply orb_true_r|exact L|]. rewrite L, andb_true_r. apply negb_true_iff, N.eqb_neq. intro E. exact (K i (or_introl eq_refl) (eq_sym E)). }
  assert (M1 : l_mem (fst (lstep w s c)) a = l_mem s a).
  { rewrite lstep_mem. destruct c as [inst x|i|i]; [|reflexivity|reflexivity]. destruct (a =? x) eqn:E; [|reflexivity]. apply N.eqb_eq in E. subst. destruct Fc as [_ Fc]. congruence. }
  destruct (IH _ a F L1 B) as [A C]; [intros i I; apply K; right; exact I|]. split; [exact A|]. rewrite C. exact M1.
Qed.

Theorem get_put_proof : forall w (h h' : list (lcall T)) inst a, fair w (h ++ LPut inst a :: h') ->
  (forall i, In (LRemove i) h' -> i mod 2 ^ w <> a) -> found w (h ++ LPut inst a :: h') a = Some inst.
Proof.
  intros w h h' inst a F K. unfold fair in F. apply fair_app in F. fold (lrun w h) in F. destruct F as [[B _] F].
  destruct (live_kept w h' (fst (lstep w (lrun w h) (LPut inst a))) a F) as [A C]; [rewrite lstep_has, N.eqb_refl; reflexivity|exact B|exact K|].
  rewrite found_eq, N.mod_small by exact B. unfold lrun. rewrite fold_left_app. cbn [fold_left]. fold (lrun w h). rewrite A, C, lstep_mem, N.eqb_refl. reflexivity.
Qed.

Theorem get_removed_proof : forall w (h h' : list (lcall T)) a, a < 2 ^ w -> (forall inst, ~ In (LPut inst a) h') -> found w (h ++ LRemove a :: h') a = None.
Proof.
  intros w h h' a B K. rewrite get_exact_proof. unfold last_word. rewrite fold_left_app. cbn [fold_left]. cbn [word]. rewrite N.eqb_refl. apply word_keep. intros c I. destruct c as [inst x|i|i]; cbn [word].
  - destruct (N.eqb_spec (a mod 2 ^ w) x) as [E|E]; [|reflexivity]. rewrite N.mod_small in E by exact B. subst. exfalso. exact (K _ I).
  - reflexivity.
  - destruct (_ =? _); reflexivity.
Qed.

Theorem get_never_proof : forall w (h : list (lcall T)) a, a < 2 ^ w -> (forall inst, ~ In (LPut inst a) h) -> found w h a = None.
Proof.
  intros w h a B K. rewrite get_exact_proof. apply word_keep. intros c I. destruct c as [inst x|i|i]; cbn [word].
  - destruct (N.eqb_spec (a mod 2 ^ w) x) as [E|E]; [|reflexivity]. rewrite N.mod_small in E by exact B. subst. exfalso. exact (K _ I).
  - reflexivity.
  - destruct (_ =? _); reflexivity.
Qed.

(** A Remove says what a Get would have said. *)
Theorem remove_returns_proof : forall w (h : list (lcall T)) id, snd (lstep w (lrun w h) (LRemove id)) = inr (found w h id).
Proof. intros. rewrite found_eq. cbn [lstep]. destruct (has _ _); reflexivity. Qed.
End Instances.

(** ** Linked handlers *)
Section Linked.
Context {H : Type}.
Lemma nth_error_set : forall (l : list (option H)) i x j, (i < length l)%nat ->
  nth_error (firstn i l ++ x :: skipn (Datatypes.S i) l) j = if Nat.eqb j i then Some x else nth_error l j.
Proof.
  intros l i x j L. destruct (Nat.eqb_spec j i) as [->|E].
  - rewrite nth_error_app2; rewrite firstn_length_le by lia; [rewrite Nat.sub_diag; reflexivity|lia].
  - destruct (Nat.lt_ge_cases j i) as [C|C].
    + rewrite nth_error_app1 by (rewrite firstn_length_le; lia). rewrite <- (firstn_skipn i l) at 2. rewrite nth_error_app1 by (rewrite firstn_length_le; lia). reflexivity.
    + rewrite nth_error_app2; rewrite firstn_length_le by lia; [|lia]. rewrite <- (firstn_skipn (Datatypes.S i) l) at 2. rewrite nth_error_app2; rewrite firstn_length_le by lia; [|lia].
      replace (j - i)%nat with (Datatypes.S (j - Datatypes.S i)) by lia. reflexivity.
Qed.

Definition slot (l : list (option H)) (i : N) : option H := match nth_error l (N.to_nat i) with Some h => h | None => None end.

Lemma linked_slot : forall l i, len l < 2^32 -> linked_handler l i = Ret (slot l i).
Proof.
  intros l i L. unfold linked_handler, get_from, slot. unfold u32. rewrite N.mod_small by exact L. destruct (N.leb_spec (len l) i).
  - assert (E : nth_error l (N.to_nat i) = None) by (apply nth_error_None; unfold len in *; lia). rewrite E. reflexivity.
  - destruct (nth_error l (N.to_nat i)) eqn:E; [reflexivity|]. apply nth_error_None in E. unfold len in *. lia.
Qed.

Lemma set_handler_ok : forall l i h, len l < 2^32 -> i < 2^32 - 1 ->
  exists l', set_handler l i h = Ret l' /\ len l' < 2^32 /\ len l' = N.max (len l) (i + 1) /\ forall j, slot l' j = if j =? i then h else slot l j.
Proof.
  intros l i h L I. unfold set_handler. assert (W : u32 (i + 1) = i + 1) by (unfold u32; apply N.mod_small; lia). assert (U : u32 (len l) = len l) by (unfold u32; apply N.mod_small; exact L). rewrite W, U.
  set (l1 := if len l <? i + 1 then l ++ repeat None (N.to_nat (i + 1 - len l)) else l).
  assert (L1 : len l1 = N.max (len l) (i + 1)).
  { unfold l1. destruct (N.ltb_spec (len l) (i + 1)); [|lia]. unfold len in *. rewrite app_length, repeat_length. lia. }
  assert (S1 : forall j, slot l1 j = slot l j).
  { intro j. unfold l1, slot. destruct (len l <? i + 1); [|reflexivity]. destruct (Nat.lt_ge_cases (N.to_nat j) (length l)) as [C|C].
    - rewrite nth_error_app1 by exact C. reflexivity.
    - rewrite nth_error_app2 by exact C. assert (E : nth_error l (N.to_nat j) = None) by (apply nth_error_None; exact C). rewrite E.
      destruct (nth_error (repeat None _) _) as [x|] eqn:R; [|reflexivity]. apply nth_error_In, repeat_spec in R. exact R. }
  destruct (N.ltb_spec i (len l1)); [|lia]. eexists. split; [reflexivity|].
  replace (N.to_nat (i + 1)) with (Datatypes.S (N.to_nat i)) by lia.
  assert (L2 : len (firstn (N.to_nat i) l1 ++ h :: skipn (Datatypes.S (N.to_nat i)) l1) = len l1).
  { unfold len in *. rewrite app_length. cbn [length]. rewrite firstn_length_le, skipn_length by lia. lia. }
  rewrite L2. split; [lia|split; [exact L1|]]. intro j. unfold slot at 1. rewrite nth_error_set by (unfold len in *; lia).
  destruct (N.eqb_spec j i) as [->|E]; [rewrite Nat.eqb_refl; reflexivity|]. destruct (Nat.eqb_spec (N.to_nat j) (N.to_nat i)) as [X|X]; [exfalso; lia|]. rewrite <- S1. reflexivity.
Qed.

Theorem linked_proof : forall (hs : list (N * option H)) j, Forall (fun p => fst p < 2^32 - 1) hs ->
  exists l, set_all [] hs = Ret l /\ linked_handler l j = Ret (last_set hs j).
Proof.
  intros hs j F. enough (X : exists l, set_all [] hs = Ret l /\ len l < 2^32 /\ slot l j = last_set hs j).
  { destruct X as (l & A & B & C). exists l. split; [exact A|]. rewrite linked_slot by exact B. rewrite C. reflexivity. }
  induction hs as [|[i h] hs IH] using rev_ind; [exists []; split; [reflexivity|split; [reflexivity|unfold slot; destruct (N.to_nat j); reflexivity]]|].
  apply Forall_app in F as [F1 F2]. inversion F2 as [|? ? F3 _]. subst. destruct (IH F1) as (l & A & B & C). destruct (set_handler_ok l i h B F3) as (l' & A' & B' & _ & C').
  exists l'. unfold set_all, last_set in *. rewrite !fold_left_app. cbn [fold_left fst snd]. rewrite A. cbn [bind]. split; [exact A'|split; [exact B'|]]. rewrite C', C. reflexivity.
Qed.
Theorem linked_wrap_proof : forall (l : list (option H)) h, len l < 2^32 -> set_handler l (2^32 - 1) h = Panic.
Proof.
  intros l h L. unfold set_handler. change (u32 (2^32 - 1 + 1)) with 0. destruct (u32 (len l) <? 0) eqn:E; [apply N.ltb_lt in E; lia|]. destruct (N.ltb_spec (2^32 - 1) (len l)); [lia|reflexivity].
Qed.
End Linked.
