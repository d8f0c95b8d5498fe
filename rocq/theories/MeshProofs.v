(** Proofs about the linking of the mesh. *)
From Coq Require Import List NArith ZArith Lia Bool ZifyBool ZifyNat ZifyN.
From Verif Require Import Base BaseLemmas OperationsModel InvokeModel InvokeSpec InvokeProofs MeshModel MeshSpec.
Import ListNotations.
Open Scope N_scope.

(** ** Exports *)
Definition ex (m : mesh) (x : info) : option destination := find_export (m_exports m) x.
Definition upd (x : info) (l : list (info * destination)) (d : option destination) : option destination :=
  match last_export x l with Some d' => Some d' | None => d end.

Lemma last_from : forall x l acc, fold_left (fun acc p => if info_dec (fst p) x then Some (snd p) else acc) l acc = upd x l acc.
Proof.
  intros x l. induction l as [|[y d] l IH]; intro acc; [reflexivity|]. unfold upd, last_export. cbn [fold_left fst snd]. rewrite !IH. unfold upd.
  destruct (last_export x l); [reflexivity|]. destruct (info_dec y x); reflexivity.
Qed.
Lemma last_app : forall x l l', last_export x (l ++ l') = upd x l' (last_export x l).
Proof. intros. unfold last_export at 1. rewrite fold_left_app. apply last_from. Qed.
Lemma upd_app : forall x l l' d, upd x (l ++ l') d = upd x l' (upd x l d).
Proof. intros. unfold upd at 1. rewrite last_app. unfold upd. destruct (last_export x l'); reflexivity. Qed.
Lemma upd_nil : forall x d, upd x [] d = d.
Proof. reflexivity. Qed.
Lemma find_cons : forall y d l x, find_export ((y, d) :: l) x = upd x [(y, d)] (find_export l x).
Proof.
  intros. cbn [find_export]. unfold upd, last_export. cbn [fold_left fst snd]. destruct (info_dec y x) as [->|N].
  - assert (E : info_eq x x = true) by (apply info_eq_iff; reflexivity). rewrite E. reflexivity.
  - destruct (info_eq y x) eqn:E; [apply info_eq_iff in E; contradiction|reflexivity].
Qed.

(** ** One target: the slot for index [idx] of kind [k] in instance [i] *)
Section Target.
Context (i : nat) (k : ikind) (idx : N).

Definition slotm (m : mesh) : option destination := slot (m_tabs m i k) idx.
Definition hit (p : nat * operation) : bool :=
  Nat.eqb i (fst p) && match kind_of (op_type (snd p)) with Some k' => ikind_same k k' | None => false end && (idx =? op_index (snd p)).
Definition tabs_ok (m : mesh) : Prop := forall i k, len (m_tabs m i k) < 2^32.
Definition good (m : mesh) : Prop := tabs_ok m /\ Forall (fun p => op_index (snd p) < 2^32 - 1) (m_unsatisfied m).

Lemma ikind_same_iff : forall a b, ikind_same a b = true <-> a = b.
Proof. intros [] []; cbn; split; congruence. Qed.

Lemma link_spec : forall m j op, tabs_ok m -> op_index op < 2^32 - 1 ->
  exists m', linkOperation m j op = Ret (m', match ex m (op_info op) with Some _ => true | None => false end) /\ tabs_ok m' /\ m_exports m' = m_exports m /\ m_unsatisfied m' = m_unsatisfied m /\
    slotm m' = if hit (j, op) then upd (op_info op) (match ex m (op_info op) with Some d => [(op_info op, d)] | None => [] end) (slotm m) else slotm m.
Proof.
  intros m j op T B. unfold linkOperation. fold (ex m (op_info op)). destruct (ex m (op_info op)) as [d|] eqn:E.
  2: { exists m. repeat split; auto. rewrite upd_nil. destruct (hit (j, op)); reflexivity. }
  assert (U : forall o, upd (op_info op) [(op_info op, d)] o = Some d) by (intro o; unfold upd, last_export; cbn [fold_left fst snd]; destruct (info_dec (op_info op) (op_info op)) as [_|C]; [reflexivity|destruct (C eq_refl)]). rewrite U.
  unfold hit. cbn [fst snd]. destruct (kind_of (op_type op)) as [k'|] eqn:K.
  2: { exists m. repeat split; auto. rewrite andb_false_r. reflexivity. }
  destruct (set_handler_ok (m_tabs m j k') (op_index op) (Some d) (T j k') B) as (l & S1 & S2 & _ & S3). rewrite S1. cbn [bind]. eexists. split; [reflexivity|]. cbn [m_exports m_unsatisfied].
  split; [|split; [reflexivity|split; [reflexivity|]]].
  - intros i' k''. cbn [m_tabs]. destruct (Nat.eqb i' j && ikind_same k'' k'); [exact S2|apply T].
  - unfold slotm. cbn [m_tabs]. destruct (Nat.eqb_spec i j) as [->|N]; cbn [andb]; [|reflexivity]. destruct (ikind_same k k') eqn:SK; cbn [andb]; [|reflexivity]. apply ikind_same_iff in SK. subst k'. rewrite S3. reflexivity.
Qed.

Lemma ex_exports : forall m m' x, m_exports m' = m_exports m -> ex m' x = ex m x.
Proof. intros. unfold ex. congruence. Qed.

Lemma retry_spec : forall us m, tabs_ok m -> Forall (fun p => op_index (snd p) < 2^32 - 1) us ->
  exists m', retry m us = Ret (m', filter (fun p => match ex m (op_info (snd p)) with Some _ => false | None => true end) us) /\ tabs_ok m' /\ m_exports m' = m_exports m /\
    forall nm, (forall p, In p us -> hit p = true -> op_info (snd p) = nm) ->
      slotm m' = if existsb hit us then (match ex m nm with Some d => Some d | None => slotm m end) else slotm m.
Proof.
  induction us as [|[j op] us IH]; intros m T F; [exists m; repeat split; auto|]. inversion F as [|? ? F1 F2]; subst. cbn [snd] in F1.
  destruct (link_spec m j op T F1) as (m1 & E1 & T1 & X1 & _ & S1). destruct (IH m1 T1 F2) as (m2 & E2 & T2 & X2 & S2).
  exists m2. cbn [retry filter snd]. rewrite E1. cbn [bind]. rewrite E2. cbn [bind]. split; [|split; [exact T2|split; [congruence|]]].
  - do 2 f_equal. assert (G : filter (fun p : nat * operation => match ex m1 (op_info (snd p)) with Some _ => false | None => true end) us = filter (fun p => match ex m (op_info (snd p)) with Some _ => false | None => true end) us).
    { apply filter_ext. intro p. rewrite (ex_exports m m1 _ X1). reflexivity. } rewrite G. destruct (ex m (op_info op)); reflexivity.
  - intros nm A. rewrite (S2 nm) by (intros p I; apply A; right; exact I). rewrite (ex_exports m m1 _ X1), S1. cbn [existsb]. destruct (hit (j, op)) eqn:H; cbn [orb]; [|reflexivity].
    assert (N : op_info op = nm) by (apply (A (j, op)); [left; reflexivity|exact H]). rewrite N. destruct (ex m nm) as [d|] eqn:E.
    + assert (U : upd nm [(nm, d)] (slotm m) = Some d) by (unfold upd, last_export; cbn [fold_left fst snd]; destruct (info_dec nm nm) as [_|C]; [reflexivity|destruct (C eq_refl)]). rewrite U. destruct (existsb hit us); reflexivity.
    + rewrite upd_nil. destruct (existsb hit us); reflexivity.
Qed.

(** ** The life of the target *)
Inductive st := Settled (v : option destination) | Waiting (nm : info).
Definition is_st (m : mesh) (s : st) : Prop :=
  match s with
  | Settled v => slotm m = v /\ forall p, In p (m_unsatisfied m) -> hit p = false
  | Waiting nm => slotm m = None /\ (exists p, In p (m_unsatisfied m) /\ hit p = true) /\ forall p, In p (m_unsatisfied m) -> hit p = true -> op_info (snd p) = nm
  end.

Definition ops_ok (ops : list operation) : Prop := forall o, In o ops -> op_dir o = 2 -> op_index o < 2^32 - 1.

Lemma exports_in_app : forall j a b, exports_in j (a ++ b) = exports_in j a ++ exports_in j b.
Proof. intros. apply flat_map_app. Qed.

Lemma each_app : forall a b m j n, link_each m j (a ++ b) n = bind (link_each m j a n) (fun '(m1, n1) => link_each m1 j b n1).
Proof.
  induction a as [|o a IH]; intros b m j n; [reflexivity|]. cbn [app link_each]. destruct (op_dir o =? ExportDir); [apply IH|]. destruct (op_dir o =? ImportDir); [|apply IH].
  destruct (linkOperation m j o) as [[m1 ok]| |]; cbn [bind]; try reflexivity. apply IH.
Qed.

(** Processing a table that does not concern the target. *)
Lemma each_miss : forall ops m j n s, good m -> ops_ok ops -> (forall o, In o ops -> op_dir o = 2 -> hit (j, o) = false) -> is_st m s ->
  exists m' n', link_each m j ops n = Ret (m', n') /\ good m' /\ is_st m' s /\ (forall x, ex m' x = upd x (exports_in j ops) (ex m x)) /\ n' = n + len (exports_in j ops).
Proof.
  induction ops as [|o ops IH]; intros m j n s G O A S.
  - exists m, n. cbn [link_each exports_in flat_map]. rewrite len_nil, N.add_0_r. split; [reflexivity|split; [exact G|split; [exact S|split; [intro; reflexivity|reflexivity]]]].
  - assert (O' : ops_ok ops) by (intros o' I; apply O; right; exact I). assert (A' : forall o', In o' ops -> op_dir o' = 2 -> hit (j, o') = false) by (intros o' I; apply A; right; exact I).
    cbn [link_each exports_in flat_map]. fold (exports_in j ops). change ExportDir with 1. change ImportDir with 2. destruct (N.eqb_spec (op_dir o) 1) as [D|D].
    + set (m1 := mkMesh ((op_info o, mkDest j (op_index o)) :: m_exports m) (m_unsatisfied m) (m_tabs m)).
      destruct (IH m1 j (n + 1) s) as (m' & n' & E & G' & S' & X' & N'); [exact G|exact O'|exact A'|destruct s; exact S|].
      * exists m', n'. split; [exact E|split; [exact G'|split; [exact S'|split]]].
        -- intro x. rewrite X'. unfold ex at 1, m1. cbn [m_exports]. rewrite find_cons. rewrite upd_app. reflexivity.
        -- rewrite N'. change ([((op_ns o, op_name o), mkDest j (op_index o))] ++ exports_in j ops) with (((op_ns o, op_name o), mkDest j (op_index o)) :: exports_in j ops). rewrite len_cons. lia.
    + cbn [app]. destruct (N.eqb_spec (op_dir o) 2) as [D2|D2]; [|apply IH; assumption].
      destruct G as [T F]. destruct (link_spec m j o T (O o (or_introl eq_refl) D2)) as (m1 & E1 & T1 & X1 & U1 & S1). rewrite E1. cbn [bind].
      rewrite (A o (or_introl eq_refl) D2) in S1.
      set (m2 := if match ex m (op_info o) with Some _ => true | None => false end then m1 else mkMesh (m_exports m1) (m_unsatisfied m1 ++ [(j, o)]) (m_tabs m1)).
      assert (X2 : m_exports m2 = m_exports m) by (unfold m2; destruct (ex m (op_info o)); cbn [m_exports]; exact X1).
      destruct (IH m2 j n s) as (m' & n' & E & G' & S' & X' & N'); try assumption.
      * split; [unfold m2; destruct (ex m (op_info o)); [exact T1|exact T1]|]. unfold m2. destruct (ex m (op_info o)); [rewrite U1; exact F|]. cbn [m_unsatisfied]. rewrite U1. apply Forall_app. split; [exact F|]. constructor; [|constructor]. apply (O o (or_introl eq_refl) D2).
      * assert (SS : slotm m2 = slotm m) by (unfold m2; destruct (ex m (op_info o)); exact S1).
        assert (UU : forall p, In p (m_unsatisfied m2) -> In p (m_unsatisfied m) \/ p = (j, o)).
        { unfold m2. destruct (ex m (op_info o)); [rewrite U1; auto|]. cbn [m_unsatisfied]. rewrite U1. intros p I. apply in_app_iff in I as [I|[I|[]]]; auto. }
        assert (UV : forall p, In p (m_unsatisfied m) -> In p (m_unsatisfied m2)).
        { unfold m2. destruct (ex m (op_info o)); [rewrite U1; auto|]. cbn [m_unsatisfied]. rewrite U1. intros p I. apply in_app_iff. auto. }
        assert (Hj := A o (or_introl eq_refl) D2). destruct s as [v|nm]; cbn [is_st] in *.
        -- destruct S as [S2 S3]. split; [congruence|]. intros p I. destruct (UU p I) as [I'|E']; [auto|rewrite E'; exact Hj].
        -- destruct S as (S2 & (p0 & P1 & P2) & S3). split; [congruence|]. split; [exists p0; auto|]. intros p I Hp. destruct (UU p I) as [I'|E']; [auto|rewrite E' in Hp; congruence].
      * exists m', n'. split; [exact E|split; [exact G'|split; [exact S'|split; [|exact N']]]]. intro x. rewrite X'. rewrite (ex_exports m m2 _ X2). reflexivity.
Qed.

(** The end of a load. *)
Definition finish (m1 : mesh) (n : N) : outcome no_err mesh :=
  if (0 <? n) && (0 <? len (m_unsatisfied m1)) then do (m2, kept) <- retry m1 (m_unsatisfied m1) ; Ret (mkMesh (m_exports m2) kept (m_tabs m2)) else Ret m1.

Lemma filter_In' : forall A (f : A -> bool) x l, In x (filter f l) -> In x l.
Proof. intros A f x l I. apply filter_In in I. tauto. Qed.

Lemma finish_spec : forall m n s, good m -> is_st m s -> (match s with Waiting nm => n = 0 -> ex m nm = None | Settled _ => True end) ->
  exists m', finish m n = Ret m' /\ good m' /\ m_exports m' = m_exports m /\
    is_st m' (match s with Settled v => Settled v | Waiting nm => match ex m nm with Some d => Settled (Some d) | None => Waiting nm end end).
Proof.
  intros m n s G S Z. unfold finish. destruct ((0 <? n) && (0 <? len (m_unsatisfied m))) eqn:C.
  - destruct G as [T F]. destruct (retry_spec (m_unsatisfied m) m T F) as (m2 & E & T2 & X2 & S2). rewrite E. cbn [bind]. eexists. split; [reflexivity|]. cbn [m_exports].
    split; [|split; [exact X2|]].
    + split; [exact T2|]. cbn [m_unsatisfied]. rewrite Forall_forall in *. intros p I. apply F. exact (filter_In' _ _ _ _ I).
    + destruct s as [v|nm]; cbn [is_st] in *.
      * destruct S as [S3 S4]. specialize (S2 ([], [])). assert (H0 : existsb hit (m_unsatisfied m) = false). { apply not_true_is_false. intro H. apply existsb_exists in H as (p & I & Hp). rewrite (S4 p I) in Hp. discriminate. }
        rewrite H0 in S2. split; [change (slotm m2 = v); rewrite S2; [exact S3|]|].
        -- intros p I Hp. rewrite (S4 p I) in Hp. discriminate.
        -- cbn [m_unsatisfied]. intros p I. apply S4. exact (filter_In' _ _ _ _ I).
      * destruct S as (S3 & (p0 & P1 & P2) & S4). specialize (S2 nm S4). assert (H1 : existsb hit (m_unsatisfied m) = true) by (apply existsb_exists; exists p0; auto). rewrite H1 in S2.
        destruct (ex m nm) as [d|] eqn:Ex; cbn [is_st m_unsatisfied].
        -- split; [exact S2|]. intros p I. apply filter_In in I as [I K]. apply not_true_is_false. intro Hp. rewrite (S4 p I Hp), Ex in K. discriminate.
        -- split; [change (slotm m2 = None); congruence|]. split; [|intros p I; apply S4; exact (filter_In' _ _ _ _ I)]. exists p0. split; [|exact P2]. apply filter_In. split; [exact P1|]. rewrite (S4 p0 P1 P2), Ex. reflexivity.
  - exists m. split; [reflexivity|split; [exact G|split; [reflexivity|]]]. destruct s as [v|nm]; [exact S|]. assert (N0 : n = 0).
    { destruct S as (_ & (p0 & P1 & _) & _). destruct (m_unsatisfied m) as [|p l] eqn:Eu; [destruct P1|]. rewrite len_cons in C. lia. }
    rewrite (Z N0). exact S.
Qed.

Lemma linkOperations_eq : forall m j t, linkOperations m j t = bind (link_each m j t 0) (fun '(m1, n) => finish m1 n).
Proof. reflexivity. Qed.

(** One load that does not concern the target. *)
Lemma load_miss : forall t m j s, good m -> ops_ok t -> (forall o, In o t -> op_dir o = 2 -> hit (j, o) = false) -> is_st m s ->
  (match s with Waiting nm => ex m nm = None | Settled _ => True end) ->
  exists m', linkOperations m j t = Ret m' /\ good m' /\ (forall x, ex m' x = upd x (exports_in j t) (ex m x)) /\
    is_st m' (match s with Settled v => Settled v | Waiting nm => match last_export nm (exports_in j t) with Some d => Settled (Some d) | None => Waiting nm end end).
Proof.
  intros t m j s G O A S Z. rewrite linkOperations_eq. destruct (each_miss t m j 0 s G O A S) as (m1 & n1 & E & G1 & S1 & X1 & N1). rewrite E. cbn [bind].
  assert (W : match s with Waiting nm => ex m1 nm = last_export nm (exports_in j t) | Settled _ => True end) by (destruct s as [v|nm]; [exact I|]; rewrite X1, Z; unfold upd; destruct (last_export nm (exports_in j t)); reflexivity).
  destruct (finish_spec m1 n1 s G1 S1) as (m' & E' & G' & X' & S').
  - destruct s as [v|nm]; [exact I|]. intro N0. rewrite W. assert (L : len (exports_in j t) = 0) by lia. apply len_0 in L. rewrite L. reflexivity.
  - exists m'. split; [exact E'|split; [exact G'|split; [intro x; rewrite (ex_exports m1 m' x X'); apply X1|]]]. destruct s as [v|nm]; [exact S'|]. rewrite W in S'. exact S'.
Qed.

(** The load that contains the import. *)
Lemma load_hit : forall pre op post m, good m -> ops_ok (pre ++ op :: post) -> op_dir op = 2 -> hit (i, op) = true ->
  (forall o, In o (pre ++ post) -> op_dir o = 2 -> hit (i, o) = false) -> is_st m (Settled None) ->
  exists m', linkOperations m i (pre ++ op :: post) = Ret m' /\ good m' /\ (forall x, ex m' x = upd x (exports_in i (pre ++ op :: post)) (ex m x)) /\
    is_st m' (match upd (op_info op) (exports_in i pre) (ex m (op_info op)) with
              | Some d => Settled (Some d)
              | None => match last_export (op_info op) (exports_in i (pre ++ op :: post)) with Some d => Settled (Some d) | None => Waiting (op_info op) end
              end).
Proof.
  intros pre op post m G O D H A S. rewrite linkOperations_eq, each_app.
  destruct (each_miss pre m i 0 (Settled None) G) as (m1 & n1 & E1 & G1 & S1 & X1 & N1); [intros o I; apply O; apply in_app_iff; auto|intros o I; apply A; apply in_app_iff; auto|exact S|].
  rewrite E1. cbn [bind link_each]. rewrite D. change (2 =? ExportDir) with false. change (2 =? ImportDir) with true. cbv beta iota.
  assert (B : op_index op < 2^32 - 1) by (apply O; [apply in_app_iff; right; left; reflexivity|exact D]).
  destruct G1 as [T1 F1]. destruct (link_spec m1 i op T1 B) as (m2 & E2 & T2 & X2 & U2 & S2). rewrite E2. cbn [bind]. rewrite H in S2. destruct S1 as [S1 S1']. rewrite <- X1.
  assert (EO : exports_in i (pre ++ op :: post) = exports_in i pre ++ exports_in i post).
  { rewrite exports_in_app. f_equal. unfold exports_in. cbn [flat_map]. rewrite D. reflexivity. } rewrite EO.
  assert (Omiss : ops_ok post) by (intros o I; apply O; apply in_app_iff; right; right; exact I). assert (Amiss : forall o, In o post -> op_dir o = 2 -> hit (i, o) = false) by (intros o I; apply A; apply in_app_iff; auto).
  destruct (ex m1 (op_info op)) as [d|] eqn:Ex.
  - assert (U : upd (op_info op) [(op_info op, d)] (slotm m1) = Some d) by (unfold upd, last_export; cbn [fold_left fst snd]; destruct (info_dec (op_info op) (op_info op)) as [_|C]; [reflexivity|destruct (C eq_refl)]). rewrite U in S2.
    assert (St : is_st m2 (Settled (Some d))) by (split; [exact S2|rewrite U2; exact S1']). assert (G2 : good m2) by (split; [exact T2|rewrite U2; exact F1]).
    destruct (each_miss post m2 i n1 (Settled (Some d)) G2 Omiss Amiss St) as (m3 & n3 & E3 & G3 & S3 & X3 & N3). rewrite E3. cbn [bind].
    destruct (finish_spec m3 n3 (Settled (Some d)) G3 S3 Logic.I) as (m' & E' & G' & X' & S'). exists m'. split; [exact E'|split; [exact G'|split; [|exact S']]].
    intro x. rewrite (ex_exports m3 m' x X'), X3, (ex_exports m1 m2 x X2), X1, upd_app. reflexivity.
  - rewrite upd_nil in S2. set (m2' := mkMesh (m_exports m2) (m_unsatisfied m2 ++ [(i, op)]) (m_tabs m2)).
    assert (St : is_st m2' (Waiting (op_info op))).
    { split; [change (slotm m2 = None); congruence|]. cbn [m2' m_unsatisfied]. split; [exists (i, op); split; [apply in_app_iff; right; left; reflexivity|exact H]|].
      intros p I Hp. apply in_app_iff in I as [I|[I|[]]]; [|subst p; reflexivity]. rewrite U2 in I. rewrite (S1' p I) in Hp. discriminate. }
    assert (G2 : good m2') by (split; [exact T2|cbn [m2' m_unsatisfied]; rewrite U2; apply Forall_app; split; [exact F1|constructor; [exact B|constructor]]]).
    destruct (each_miss post m2' i n1 (Waiting (op_info op)) G2 Omiss Amiss St) as (m3 & n3 & E3 & G3 & S3 & X3 & N3). change (m_unsatisfied m2 ++ [(i, op)]) with (m_unsatisfied m2'). rewrite E3. cbn [bind].
    assert (X23 : forall x, ex m2' x = ex m1 x) by (intro x; apply ex_exports; exact X2).
    assert (W : ex m3 (op_info op) = last_export (op_info op) (exports_in i post)) by (rewrite X3, X23, Ex; unfold upd; destruct (last_export (op_info op) (exports_in i post)); reflexivity).
    assert (P : last_export (op_info op) (exports_in i pre) = None) by (rewrite X1 in Ex; unfold upd in Ex; destruct (last_export (op_info op) (exports_in i pre)); [discriminate|reflexivity]).
    assert (W' : last_export (op_info op) (exports_in i pre ++ exports_in i post) = ex m3 (op_info op)) by (rewrite W, last_app, P; unfold upd; destruct (last_export (op_info op) (exports_in i post)); reflexivity).
    destruct (finish_spec m3 n3 (Waiting (op_info op)) G3 S3) as (m' & E' & G' & X' & S').
    + intro N0. rewrite W. assert (L : len (exports_in i post) = 0) by lia. apply len_0 in L. rewrite L. reflexivity.
    + exists m'. split; [exact E'|split; [exact G'|split]]; [|rewrite W'; exact S']. intro x. rewrite (ex_exports m3 m' x X'), X3, X23, X1, upd_app. reflexivity.
Qed.

(** Many loads that do not concern the target. *)
Lemma loads_miss : forall h m j s, good m -> Forall ops_ok h -> (forall n t o, nth_error h n = Some t -> In o t -> op_dir o = 2 -> hit ((j + n)%nat, o) = false) -> is_st m s ->
  (match s with Waiting nm => ex m nm = None | Settled _ => True end) ->
  exists m', load_from m j h = Ret m' /\ good m' /\ (forall x, ex m' x = upd x (concat (numbered j h)) (ex m x)) /\
    is_st m' (match s with Settled v => Settled v | Waiting nm => match first_group nm (numbered j h) with Some d => Settled (Some d) | None => Waiting nm end end).
Proof.
  induction h as [|t h IH]; intros m j s G O A S Z.
  - exists m. split; [reflexivity|split; [exact G|split; [intro; reflexivity|]]]. destruct s; exact S.
  - inversion O as [|? ? O1 O2]; subst. destruct (load_miss t m j s G O1) as (m1 & E1 & G1 & X1 & S1); [intros o I Dd; rewrite <- (Nat.add_0_r j); apply (A 0%nat t o eq_refl I Dd)|exact S|exact Z|].
    cbn [load_from]. rewrite E1. cbn [bind]. set (s1 := match s with Settled v => Settled v | Waiting nm => match last_export nm (exports_in j t) with Some d => Settled (Some d) | None => Waiting nm end end) in *.
    destruct (IH m1 (Datatypes.S j) s1 G1 O2) as (m' & E' & G' & X' & S').
    + intros n t' o E I Dd. replace (Datatypes.S j + n)%nat with (j + Datatypes.S n)%nat by lia. apply (A (Datatypes.S n) t' o E I Dd).
    + exact S1.
    + unfold s1. destruct s as [v|nm]; [exact Logic.I|]. destruct (last_export nm (exports_in j t)) as [d|] eqn:L; [exact Logic.I|]. rewrite X1, Z. unfold upd. rewrite L. reflexivity.
    + exists m'. split; [exact E'|split; [exact G'|split]].
      * intro x. rewrite X', X1. cbn [numbered concat]. rewrite upd_app. reflexivity.
      * cbn [numbered first_group]. unfold s1 in S'. destruct s as [v|nm]; [exact S'|]. destruct (last_export nm (exports_in j t)); exact S'.
Qed.
End Target.

Lemma load_app : forall a m j b, load_from m j (a ++ b) = bind (load_from m j a) (fun m1 => load_from m1 (j + length a) b).
Proof.
  induction a as [|t a IH]; intros m j b; cbn [app load_from length]; [rewrite Nat.add_0_r; reflexivity|]. destruct (linkOperations m j t); cbn [bind]; try reflexivity. rewrite IH, Nat.add_succ_r. reflexivity.
Qed.

Lemma table_ops_ok : forall t, table_ok t -> ops_ok t.
Proof.
  intros t [_ F] o I D. rewrite Forall_forall in F. apply (F (op_type o, op_index o)). unfold import_slots. apply in_flat_map. exists o. split; [exact I|]. rewrite D. left. reflexivity.
Qed.

Lemma kind_of_type_no : forall ty k, kind_of ty = Some k <-> ty = type_no k.
Proof.
  intros ty k. unfold kind_of. split.
  - destruct (N.eqb_spec ty 1) as [->|]; [intro E; injection E as <-; reflexivity|]. destruct (N.eqb_spec ty 2) as [->|]; [intro E; injection E as <-; reflexivity|].
    destruct (N.eqb_spec ty 3) as [->|]; [intro E; injection E as <-; reflexivity|]. destruct (N.eqb_spec ty 4) as [->|]; [intro E; injection E as <-; reflexivity|discriminate].
  - intros ->. destruct k; reflexivity.
Qed.
Lemma hit_iff : forall i k idx j o, hit i k idx (j, o) = true <-> i = j /\ op_type o = type_no k /\ op_index o = idx.
Proof.
  intros i k idx j o. unfold hit. cbn [fst snd]. rewrite !andb_true_iff, Nat.eqb_eq, N.eqb_eq. split.
  - intros [[-> A] ->]. destruct (kind_of (op_type o)) as [k'|] eqn:K; [|discriminate]. apply ikind_same_iff in A. subst. apply kind_of_type_no in K. auto.
  - intros (-> & A & <-). apply kind_of_type_no in A. rewrite A. repeat split. apply ikind_same_iff. reflexivity.
Qed.

Lemma new_st : forall i k idx, is_st i k idx new_mesh (Settled None).
Proof. intros. split; [unfold slotm, slot; cbn; destruct (N.to_nat idx); reflexivity|intros p []]. Qed.
Lemma new_good : good new_mesh.
Proof. split; [intros i k; reflexivity|constructor]. Qed.

(** ** The theorems *)
Theorem linked_proof : forall h1 pre op post h2 k, Forall table_ok (h1 ++ (pre ++ op :: post) :: h2) -> op_dir op = 2 -> op_type op = type_no k ->
  exists m, load_all (h1 ++ (pre ++ op :: post) :: h2) = Ret m /\
    linked m (length h1) k (op_index op) = Ret
      (match last_export (op_ns op, op_name op) (concat (numbered 0 h1) ++ exports_in (length h1) pre) with
       | Some d => Some d
       | None => first_group (op_ns op, op_name op) (numbered (length h1) ((pre ++ op :: post) :: h2))
       end).
Proof.
  intros h1 pre op post h2 k F D K. set (i := length h1). set (t := pre ++ op :: post) in *. apply Forall_app in F as [F1 F2]. inversion F2 as [|? ? F3 F4]; subst.
  assert (W : forall l, Forall table_ok l -> Forall ops_ok l) by (intros l X; eapply Forall_impl; [|exact X]; exact table_ops_ok).
  set (nm := (op_ns op, op_name op)). assert (Nm : op_info op = nm) by reflexivity.
  destruct (loads_miss i k (op_index op) h1 new_mesh 0 (Settled None) new_good (W _ F1)) as (m1 & E1 & G1 & X1 & S1).
  - intros n t' o E I Dd. apply not_true_is_false. intro H. apply hit_iff in H as (H & _). assert (n < length h1)%nat by (apply nth_error_Some; congruence). unfold i in H. lia.
  - apply new_st.
  - exact I.
  - destruct (load_hit i k (op_index op) pre op post m1 G1 (table_ops_ok _ F3) D) as (m2 & E2 & G2 & X2 & S2).
    + apply hit_iff. auto.
    + intros o I Dd. apply not_true_is_false. intro H. apply hit_iff in H as (_ & H1 & H2). destruct F3 as [N _]. unfold t, import_slots in N. rewrite flat_map_app in N. cbn [flat_map] in N. rewrite D in N. change (2 =? 2) with true in N. cbn [app] in N.
      apply NoDup_remove_2 in N. apply N. rewrite <- flat_map_app. apply in_flat_map. exists o. split; [exact I|]. rewrite Dd. left. congruence.
    + exact S1.
    + fold t in E2, X2, S2. rewrite Nm in S2. set (s2 := match upd nm (exports_in i pre) (ex m1 nm) with Some d => Settled (Some d) | None => match last_export nm (exports_in i t) with Some d => Settled (Some d) | None => Waiting nm end end) in *.
      destruct (loads_miss i k (op_index op) h2 m2 (Datatypes.S i) s2 G2 (W _ F4)) as (m3 & E3 & G3 & X3 & S3).
      * intros n t' o E I Dd. apply not_true_is_false. intro H. apply hit_iff in H as (H & _). lia.
      * exact S2.
      * unfold s2. destruct (upd nm (exports_in i pre) (ex m1 nm)) as [d|] eqn:U; [exact I|]. destruct (last_export nm (exports_in i t)) as [d|] eqn:L; [exact I|]. rewrite X2. unfold upd. rewrite L.
        unfold upd in U. destruct (last_export nm (exports_in i pre)); [discriminate|exact U].
      * exists m3. split.
        { unfold load_all. rewrite load_app, E1. cbn [bind load_from]. rewrite Nat.add_0_l. fold i. rewrite E2. cbn [bind]. exact E3. }
        assert (EE : ex m1 nm = last_export nm (concat (numbered 0 h1))) by (rewrite X1; unfold upd, ex; cbn [new_mesh m_exports find_export]; destruct (last_export nm (concat (numbered 0 h1))); reflexivity).
        assert (L1 : upd nm (exports_in i pre) (ex m1 nm) = last_export nm (concat (numbered 0 h1) ++ exports_in i pre)) by (rewrite EE, last_app; reflexivity).
        destruct G3 as [T3 _]. unfold linked. rewrite linked_slot by apply T3. f_equal. rewrite <- L1. cbn [numbered first_group]. unfold s2 in S3.
        destruct (upd nm (exports_in i pre) (ex m1 nm)) as [d|]; [exact (proj1 S3)|]. destruct (last_export nm (exports_in i t)) as [d|]; [exact (proj1 S3)|].
        destruct (first_group nm (numbered (Datatypes.S i) h2)) as [d|]; [exact (proj1 S3)|exact (proj1 S3)].
Qed.

(** A slot no import names stays empty. *)
Theorem unlinked_proof : forall h i k idx, Forall table_ok h -> (forall t o, nth_error h i = Some t -> In o t -> op_dir o = 2 -> ~ (op_type o = type_no k /\ op_index o = idx)) ->
  exists m, load_all h = Ret m /\ linked m i k idx = Ret None.
Proof.
  intros h i k idx F A. destruct (loads_miss i k idx h new_mesh 0 (Settled None) new_good) as (m & E & G & X & S).
  - eapply Forall_impl; [|exact F]. exact table_ops_ok.
  - intros n t o En I D. apply not_true_is_false. intro H. apply hit_iff in H as (H & H1 & H2). cbn [Nat.add] in H. subst n. exact (A t o En I D (conj H1 H2)).
  - apply new_st.
  - exact I.
  - exists m. split; [exact E|]. unfold linked. destruct G as [T _]. rewrite linked_slot by apply T. f_equal. exact (proj1 S).
Qed.

Theorem requests_proof : forall h, Forall table_ok h -> exists m, load_all h = Ret m /\ forall x, mesh_request m x = last_export x (all_exports h).
Proof.
  intros h F. destruct (loads_miss (length h) RR 0 h new_mesh 0 (Settled None) new_good) as (m & E & G & X & S).
  - eapply Forall_impl; [|exact F]. exact table_ops_ok.
  - intros n t o En I D. apply not_true_is_false. intro H. apply hit_iff in H as (H & _). assert (n < length h)%nat by (apply nth_error_Some; congruence). lia.
  - apply new_st.
  - exact I.
  - exists m. split; [exact E|]. intro x. unfold mesh_request. fold (ex m x). rewrite X. unfold upd, all_exports, ex. cbn [new_mesh m_exports find_export]. destruct (last_export x (concat (numbered 0 h))); reflexivity.
Qed.

(** ** Consequences *)
Lemma last_in : forall x l d, last_export x l = Some d -> In (x, d) l.
Proof.
  intros x l. induction l as [|[y e] l IH] using rev_ind; intros d E; [discriminate|]. rewrite last_app in E. apply in_app_iff. unfold upd, last_export at 1 in E. cbn [fold_left fst snd] in E.
  destruct (info_dec y x) as [->|N]; [injection E as ->; right; left; reflexivity|left; auto].
Qed.
Lemma last_none : forall x l, last_export x l = None <-> forall d, ~ In (x, d) l.
Proof.
  intros x l. split.
  - induction l as [|[y e] l IH] using rev_ind; intros E d I; [exact I|]. rewrite last_app in E. unfold upd, last_export at 1 in E. cbn [fold_left fst snd] in E. destruct (info_dec y x) as [->|N]; [discriminate|].
    apply in_app_iff in I as [I|[I|[]]]; [exact (IH E d I)|]. injection I as -> _. apply N. reflexivity.
  - intro A. destruct (last_export x l) as [d|] eqn:E; [|reflexivity]. exfalso. exact (A d (last_in _ _ _ E)).
Qed.
Lemma group_in : forall x ls d, first_group x ls = Some d -> In (x, d) (concat ls).
Proof.
  intros x ls. induction ls as [|l ls IH]; intros d E; [discriminate|]. cbn [first_group concat] in *. apply in_app_iff. destruct (last_export x l) as [e|] eqn:L; [injection E as ->; left; apply last_in; exact L|right; auto].
Qed.
Lemma group_none : forall x ls, first_group x ls = None <-> forall d, ~ In (x, d) (concat ls).
Proof.
  intros x ls. induction ls as [|l ls IH]; cbn [first_group concat]; [split; [intros _ d []|reflexivity]|]. destruct (last_export x l) as [e|] eqn:L.
  - split; [discriminate|]. intro A. exfalso. apply (A e). apply in_app_iff. left. apply last_in. exact L.
  - rewrite IH. rewrite last_none in L. split; intros A d I; [apply in_app_iff in I as [I|I]; [exact (L d I)|exact (A d I)]|apply (A d); apply in_app_iff; auto].
Qed.
Lemma numbered_app : forall a j b, numbered j (a ++ b) = numbered j a ++ numbered (j + length a) b.
Proof. induction a as [|t a IH]; intros j b; cbn [app numbered length]; [rewrite Nat.add_0_r; reflexivity|]. rewrite IH, Nat.add_succ_r. reflexivity. Qed.

(** Every import of an exported name is linked, to an export of that name. *)
Theorem complete_proof : forall h i t op k, Forall table_ok h -> nth_error h i = Some t -> In op t -> op_dir op = 2 -> op_type op = type_no k ->
  exists m r, load_all h = Ret m /\ linked m i k (op_index op) = Ret r /\
    (forall d, r = Some d -> In ((op_ns op, op_name op), d) (all_exports h)) /\ (r = None -> forall d, ~ In ((op_ns op, op_name op), d) (all_exports h)).
Proof.
  intros h i t op k F E I D K. apply nth_error_split in E as (h1 & h2 & -> & <-). apply in_split in I as (pre & post & ->).
  destruct (linked_proof h1 pre op post h2 k F D K) as (m & E & L). eexists m, _. split; [exact E|split; [exact L|]]. unfold all_exports. rewrite numbered_app, concat_app. cbn [Nat.add].
  set (nm := (op_ns op, op_name op)). set (A := concat (numbered 0 h1)). set (t := pre ++ op :: post). set (B := numbered (length h1) (t :: h2)).
  assert (P : forall d, In (nm, d) (exports_in (length h1) pre) -> In (nm, d) (concat B)).
  { intros d J. unfold B. cbn [numbered concat]. apply in_app_iff. left. unfold t. rewrite exports_in_app. apply in_app_iff. auto. }
  destruct (last_export nm (A ++ exports_in (length h1) pre)) as [e|] eqn:X.
  - split; [|discriminate]. intros d J. injection J as <-. apply last_in in X. apply in_app_iff in X. apply in_app_iff. destruct X as [X|X]; [left; exact X|right; auto].
  - rewrite last_none in X. split.
    + intros d J. apply in_app_iff. right. apply group_in. exact J.
    + intros J d Q. apply in_app_iff in Q as [Q|Q]; [exact (X d (proj2 (in_app_iff _ _ _) (or_introl Q)))|]. exact (proj1 (group_none nm B) J d Q).
Qed.

(** If a name has one export only, that is where all its imports go. *)
Theorem unique_proof : forall h i t op k d, Forall table_ok h -> nth_error h i = Some t -> In op t -> op_dir op = 2 -> op_type op = type_no k ->
  In ((op_ns op, op_name op), d) (all_exports h) -> (forall d', In ((op_ns op, op_name op), d') (all_exports h) -> d' = d) ->
  exists m, load_all h = Ret m /\ linked m i k (op_index op) = Ret (Some d).
Proof.
  intros h i t op k d F E I D K J U. destruct (complete_proof h i t op k F E I D K) as (m & r & E1 & E2 & A & B). exists m. split; [exact E1|]. rewrite E2. destruct r as [e|].
  - rewrite (U e (A e eq_refl)). reflexivity.
  - exfalso. exact (B eq_refl d J).
Qed.

(** Later loads never change a link that exists. *)
Theorem sticky_proof : forall h h' i t op k m d, Forall table_ok (h ++ h') -> nth_error h i = Some t -> In op t -> op_dir op = 2 -> op_type op = type_no k ->
  load_all h = Ret m -> linked m i k (op_index op) = Ret (Some d) -> exists m', load_all (h ++ h') = Ret m' /\ linked m' i k (op_index op) = Ret (Some d).
Proof.
  intros h h' i t op k m d F E I D K L X. apply nth_error_split in E as (h1 & h2 & -> & <-). apply in_split in I as (pre & post & ->).
  assert (F' := F). apply Forall_app in F' as [F' _]. destruct (linked_proof h1 pre op post h2 k F' D K) as (m1 & E1 & L1). assert (m1 = m) as -> by congruence. rewrite X in L1. assert (L1' := f_equal (fun r => match r with Ret v => v | _ => None end) L1). cbv beta iota in L1'. clear L1. rename L1' into L1.
  rewrite <- app_assoc in *. cbn [app] in *. destruct (linked_proof h1 pre op post (h2 ++ h') k F D K) as (m2 & E2 & L2). exists m2. split; [exact E2|]. rewrite L2. f_equal.
  destruct (last_export _ _) as [e|]; [congruence|]. rewrite app_comm_cons, numbered_app. revert L1. generalize (numbered (length h1) ((pre ++ op :: post) :: h2)). intros ls. revert d X. generalize (op_ns op, op_name op). clear. intros nm.
  induction ls as [|l ls IH]; intros d X E; [discriminate|]. cbn [first_group app] in *. destruct (last_export nm l); [congruence|]. eapply IH; eassumption.
Qed.

Theorem redirect_proof : forall d b, 4 <= len b -> d_index d < 2^32 -> redirect d (Some b) = Ret (Some (be 4 (d_index d) ++ skipn 4 b)).
Proof.
  intros d b L _. unfold redirect. assert (P := put_at_step no_err [] b (be 4 (d_index d))). cbn [app] in P. rewrite len_nil in P. rewrite P by (rewrite be_len; lia). cbn [bind]. rewrite be_length. reflexivity.
Qed.

Theorem redirect_short_proof : forall d b, len b < 4 -> redirect d (Some b) = Panic.
Proof. intros d b L. unfold redirect, put_at. rewrite be_len. change (N.of_nat 4) with 4. destruct (0 + 4 <=? len b) eqn:E; [lia|reflexivity]. Qed.
