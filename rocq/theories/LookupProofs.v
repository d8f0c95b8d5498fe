(** The linked list of lookup.go refines the chain of LookupSpec. *)
From Coq Require Import List NArith Bool Arith Lia.
From Verif Require Import Base LookupModel LookupSpec.
Import ListNotations.
Open Scope nat_scope.

Section Proofs.
Context {S : Type}.
Notation heap := (nat -> option (node S)).
Notation cell := (nat * entry S)%type.
Implicit Types (ops : list (lop S)).

Definition hd_addr (c : list cell) (d : option nat) : option nat :=
  match c with [] => d | (a, _) :: _ => Some a end.
Fixpoint last_addr (c : list cell) (d : option nat) : option nat :=
  match c with [] => d | (a, _) :: c' => last_addr c' (Some a) end.

Fixpoint seg (h : heap) (prev : option nat) (c : list cell) (nxt : option nat) : Prop :=
  match c with
  | [] => True
  | (a, (i, s, d)) :: c' =>
    h a = Some (mkNode (if d then None else prev) (hd_addr c' nxt) i s) /\ seg h (Some a) c' nxt
  end.

Lemma NoDup_snoc : forall A (l : list A) x, NoDup l -> ~ In x l -> NoDup (l ++ [x]).
Proof.
  intros A l x ND H. rewrite <- (rev_involutive l) at 1. change [x] with (rev [x]). rewrite <- rev_app_distr.
  apply NoDup_rev. cbn. constructor; [rewrite <- in_rev; exact H|apply NoDup_rev; exact ND].
Qed.

Lemma NoDup_app_remove_l : forall A (l1 l2 : list A), NoDup (l1 ++ l2) -> NoDup l2.
Proof. induction l1 as [|x l1 IH]; intros l2 H; [exact H|]. cbn in H. inversion H; subst. auto. Qed.

Lemma hd_addr_app : forall c1 c2 d, hd_addr (c1 ++ c2) d = hd_addr c1 (hd_addr c2 d).
Proof. destruct c1 as [|[a e] c1]; reflexivity. Qed.
Lemma last_addr_app : forall c1 c2 d, last_addr (c1 ++ c2) d = last_addr c2 (last_addr c1 d).
Proof. induction c1 as [|[a e] c1 IH]; intros; cbn; auto. Qed.

Lemma seg_app : forall h c1 c2 prev nxt, seg h prev (c1 ++ c2) nxt <->
  seg h prev c1 (hd_addr c2 nxt) /\ seg h (last_addr c1 prev) c2 nxt.
Proof.
  induction c1 as [|[a [[i s] d]] c1 IH]; intros; cbn; [tauto|].
  rewrite IH, hd_addr_app. tauto.
Qed.

Lemma seg_frame : forall h h' c prev nxt, (forall a, In a (map fst c) -> h' a = h a) ->
  seg h prev c nxt -> seg h' prev c nxt.
Proof.
  induction c as [|[a [[i s] d]] c IH]; intros prev nxt HF H; cbn in *; [exact I|].
  destruct H as [H1 H2]. split; [rewrite HF; auto|apply IH; auto].
Qed.

(** The representation invariant. *)
Record repr (l : lookup S) (c : list cell) : Prop := {
  r_seg : seg (l_heap l) None c None;
  r_head : l_head l = hd_addr c None;
  r_nodup : NoDup (map fst c);
  r_alloc : forall a, In a (map fst c) -> a < l_alloc l;
  r_first : match c with (_, (_, _, d)) :: _ => d = true | [] => True end
}.

Lemma repr_empty : repr empty_lookup [].
Proof. constructor; cbn; auto; try constructor; tauto. Qed.

Lemma chain_bound : forall l n, NoDup l -> (forall a, In a l -> a < n) -> length l <= n.
Proof.
  intros l n ND H. rewrite <- (seq_length n 0). apply NoDup_incl_length; [exact ND|].
  intros a Ha. apply in_seq. specialize (H a Ha). lia.
Qed.

Definition chain (c : list cell) : list (entry S) := map snd c.

Fixpoint cfind (c : list cell) (id : N) : option nat :=
  match c with [] => None | (a, (i, _, _)) :: c' => if N.eqb i id then Some a else cfind c' id end.

Lemma find_seg : forall h id c fuel prev, seg h prev c None -> length c <= fuel ->
  find_from fuel h (hd_addr c None) id = Some (cfind c id).
Proof.
  induction c as [|[a [[i s] d]] c IH]; intros fuel prev H L; cbn in *; [destruct fuel; reflexivity|].
  destruct fuel as [|fuel]; [lia|]. destruct H as [H1 H2]. cbn. rewrite H1. cbn.
  destruct (N.eqb i id); [reflexivity|]. eapply IH; [exact H2|lia].
Qed.

Lemma find_repr : forall l c id, repr l c -> find l id = Some (cfind c id).
Proof.
  intros l c id [A B C D E]. unfold find. rewrite B. eapply find_seg; [exact A|].
  rewrite <- (map_length fst). apply chain_bound; auto.
Qed.

Lemma cfind_split : forall c id a, cfind c id = Some a -> exists c1 i s d c2,
  c = c1 ++ (a, (i, s, d)) :: c2 /\ i = id /\ (forall e, In e (chain c1) -> fst (fst e) <> id).
Proof.
  induction c as [|[a [[i s] d]] c IH]; intros id a' H; cbn in H; [discriminate|].
  destruct (N.eqb i id) eqn:E.
  - injection H as <-. exists [], i, s, d, c. apply N.eqb_eq in E. cbn. intuition.
  - destruct (IH _ _ H) as (c1 & i1 & s1 & d1 & c2 & -> & Hi & Hn).
    exists ((a, (i, s, d)) :: c1), i1, s1, d1, c2. split; [reflexivity|]. split; [exact Hi|].
    cbn. intros e [<-|He]; [cbn; apply N.eqb_neq; exact E|auto].
Qed.
Lemma cfind_none : forall c id, cfind c id = None -> forall e, In e (chain c) -> fst (fst e) <> id.
Proof.
  induction c as [|[a [[i s] d]] c IH]; cbn; [tauto|]. intros id H.
  destruct (N.eqb i id) eqn:E; [discriminate|]. intros e [<-|He]; [cbn; apply N.eqb_neq; exact E|eapply IH; eauto].
Qed.

Lemma get_skip : forall c1 c2 id, (forall e, In e c1 -> fst (fst e) <> id) -> chain_get (S:=S) (c1 ++ c2) id = chain_get c2 id.
Proof.
  induction c1 as [|[[i s] d] c1 IH]; intros c2 id H; cbn; [reflexivity|].
  destruct (N.eqb i id) eqn:E; [exfalso; apply N.eqb_eq in E; apply (H (i, s, d)); cbn; auto|].
  apply IH. intros e He; apply H; right; exact He.
Qed.
Lemma remove_skip : forall c1 c2 id, (forall e, In e c1 -> fst (fst e) <> id) ->
  chain_remove (S:=S) (c1 ++ c2) id = c1 ++ chain_remove c2 id.
Proof.
  induction c1 as [|[[i s] d] c1 IH]; intros c2 id H; cbn; [reflexivity|].
  destruct (N.eqb i id) eqn:E; [exfalso; apply N.eqb_eq in E; apply (H (i, s, d)); cbn; auto|].
  rewrite IH; [reflexivity|]. intros e He; apply H; right; exact He.
Qed.

Lemma chain_app : forall c1 c2 : list cell, chain (c1 ++ c2) = chain c1 ++ chain c2.
Proof. intros; apply map_app. Qed.

Lemma Get_repr : forall l c id, repr l c -> Get l id = Some (chain_get (chain c) id).
Proof.
  intros l c id HR. unfold Get. rewrite (find_repr l c id HR).
  destruct (cfind c id) as [a|] eqn:E.
  - destruct (cfind_split _ _ _ E) as (c1 & i & s & d & c2 & -> & -> & Hn).
    pose proof (r_seg _ _ HR) as HS. apply seg_app in HS as [_ [HA _]]. rewrite HA. cbn.
    rewrite chain_app, get_skip by exact Hn. cbn. rewrite N.eqb_refl. reflexivity.
  - rewrite <- (app_nil_r (chain c)), get_skip; [reflexivity|apply cfind_none; exact E].
Qed.

Lemma walk_seg : forall h c fuel prev a e, seg h prev ((a, e) :: c) None -> length c < fuel ->
  walk_last fuel h a = last_addr ((a, e) :: c) None.
Proof.
  induction c as [|[b e'] c IH]; intros fuel prev a [[i s] d] [H1 H2] L;
    (destruct fuel as [|fuel]; [lia|]); cbn [walk_last]; rewrite H1; cbn [n_next hd_addr last_addr].
  - reflexivity.
  - rewrite (IH fuel (Some a) b e'); [reflexivity|exact H2|cbn in L; lia].
Qed.

Lemma last_split : forall (c : list cell) d, c <> [] -> exists c' a e, c = c' ++ [(a, e)] /\ last_addr c d = Some a.
Proof.
  intros c d H. destruct (exists_last H) as (c' & [a e] & ->). exists c', a, e. split; [reflexivity|].
  rewrite last_addr_app. reflexivity.
Qed.

Lemma upd_eq : forall (h : heap) i n, upd h i n i = Some n.
Proof. intros; unfold upd; rewrite Nat.eqb_refl; reflexivity. Qed.
Lemma upd_ne : forall (h : heap) i j n, j <> i -> upd h i n j = h j.
Proof. intros; unfold upd. destruct (Nat.eqb_spec j i); congruence. Qed.

Lemma set_next_ne : forall (h : heap) i p j, j <> i -> set_next h i p j = h j.
Proof. intros; unfold set_next. destruct (h i); [apply upd_ne; auto|reflexivity]. Qed.
Lemma set_prev_ne : forall (h : heap) i p j, j <> i -> set_prev h i p j = h j.
Proof. intros; unfold set_prev. destruct (h i); [apply upd_ne; auto|reflexivity]. Qed.
Lemma set_next_eq : forall (h : heap) i p n, h i = Some n ->
  set_next h i p i = Some (mkNode (n_prev n) p (n_id n) (n_stream n)).
Proof. intros; unfold set_next. rewrite H. apply upd_eq. Qed.
Lemma set_prev_eq : forall (h : heap) i p n, h i = Some n ->
  set_prev h i p i = Some (mkNode p (n_next n) (n_id n) (n_stream n)).
Proof. intros; unfold set_prev. rewrite H. apply upd_eq. Qed.

Lemma Add_repr : forall l c id s, repr l c -> exists l' c', Add l id s = Some l' /\ repr l' c'
  /\ chain c' = chain_add (chain c) id s.
Proof.
  intros l c id s HR. unfold Add. rewrite (r_head _ _ HR).
  destruct c as [|[a0 e0] c0] eqn:Ec.
  - cbn. eexists. exists [(l_alloc l, (id, s, true))]. split; [reflexivity|]. split; [|reflexivity].
    constructor; cbn.
    + rewrite upd_eq. auto.
    + reflexivity.
    + repeat constructor. cbn. tauto.
    + intros a [<-|[]]. lia.
    + reflexivity.
  - cbn [hd_addr]. pose proof (r_seg _ _ HR) as HS.
    pose proof (chain_bound _ _ (r_nodup _ _ HR) (r_alloc _ _ HR)) as HB. rewrite map_length in HB. cbn in HB.
    rewrite (walk_seg _ _ _ _ _ _ HS) by lia.
    destruct (last_split ((a0, e0) :: c0) None) as (c' & k & [[ki ks] kd] & E & ->); [discriminate|].
    rewrite E in HS, HR.
    eexists. exists (c' ++ [(k, (ki, ks, kd)); (l_alloc l, (id, s, false))]). split; [reflexivity|].
    assert (Hal : forall b, In b (map fst (c' ++ [(k, (ki, ks, kd))])) -> b <> l_alloc l).
    { intros b Hb. pose proof (r_alloc _ _ HR b Hb). lia. }
    pose proof (r_nodup _ _ HR) as ND.
    split.
    + constructor.
      * cbn [l_heap]. apply seg_app in HS as [HS1 HS2]. apply seg_app. cbn in HS1, HS2 |- *. split; [|split; [|split; [|exact I]]].
        -- eapply seg_frame; [|exact HS1]. intros b Hb. rewrite set_next_ne, upd_ne; [reflexivity| |].
           ++ apply Hal. rewrite map_app. apply in_or_app; left; exact Hb.
           ++ intros ->. rewrite map_app in ND. cbn in ND. apply NoDup_remove_2 in ND. rewrite app_nil_r in ND. auto.
        -- destruct HS2 as [HS2 _]. erewrite set_next_eq; [|rewrite upd_ne; [exact HS2|]].
           ++ reflexivity.
           ++ apply Hal. rewrite map_app. apply in_or_app; right; left; reflexivity.
        -- rewrite set_next_ne, upd_eq; [reflexivity|].
           intro X. apply (Hal k); [rewrite map_app; apply in_or_app; right; left; reflexivity|auto].
      * cbn [l_head]. destruct c' as [|[b eb] c']; cbn in E |- *; injection E as <- ; congruence.
      * change [(k, (ki, ks, kd)); (l_alloc l, (id, s, false))] with ([(k, (ki, ks, kd))] ++ [(l_alloc l, (id, s, false))]).
        rewrite app_assoc, map_app. apply NoDup_snoc; [exact ND|].
        intro X. apply (Hal _ X). reflexivity.
      * cbn [l_alloc]. intros b Hb.
        change [(k, (ki, ks, kd)); (l_alloc l, (id, s, false))] with ([(k, (ki, ks, kd))] ++ [(l_alloc l, (id, s, false))]) in Hb.
        rewrite app_assoc, map_app in Hb. apply in_app_or in Hb as [Hb|[<-|[]]]; [|cbn; lia].
        pose proof (r_alloc _ _ HR b Hb). lia.
      * pose proof (r_first _ _ HR) as F. destruct c' as [|[b [[? ?] ?]] c']; exact F.
    + rewrite E. unfold chain_add. rewrite !chain_app, <- app_assoc. cbn.
      destruct c'; reflexivity.
Qed.

Lemma nodup_app_ne : forall (l1 l2 : list nat) a b, NoDup (l1 ++ l2) -> In a l1 -> In b l2 -> a <> b.
Proof.
  induction l1 as [|x l1 IH]; intros l2 a b ND Ha Hb; [destruct Ha|].
  cbn in ND. inversion ND; subst. destruct Ha as [->|Ha]; [|eapply IH; eauto].
  intros ->. apply H1. apply in_or_app; auto.
Qed.

(** With the addresses: a node that is unlinked is gone, one that cannot be unlinked stays. *)
Lemma Remove_repr_addr : forall l c id, repr l c -> exists l' c', Remove l id = Some l' /\ repr l' c'
  /\ chain c' = chain_remove (chain c) id
  /\ (forall a, cfind c id = Some a -> exists c1 s d c2, c = c1 ++ (a, (id, s, d)) :: c2
        /\ (forall e, In e (chain c1) -> fst (fst e) <> id) /\ map fst c' = map fst (if d then c else c1 ++ c2)).
Proof.
  intros l c id HR. unfold Remove. rewrite (find_repr l c id HR).
  destruct (cfind c id) as [a|] eqn:E.
  2:{ exists l, c. split; [reflexivity|]. split; [exact HR|].
      split; [|discriminate].
      rewrite <- (app_nil_r (chain c)), remove_skip; [reflexivity|apply cfind_none; exact E]. }
  destruct (cfind_split _ _ _ E) as (c1 & i & s & d & c2 & -> & -> & Hn). clear E.
  pose proof (r_seg _ _ HR) as HS. pose proof HS as HS'. apply seg_app in HS' as [_ [HA _]].
  rewrite HA. cbn [n_prev n_next].
  rewrite chain_app, remove_skip by exact Hn. cbn [chain map snd chain_remove]. rewrite N.eqb_refl.
  pose proof (r_nodup _ _ HR) as ND. rewrite map_app in ND. cbn [map fst] in ND.
  pose proof (r_first _ _ HR) as HF. pose proof (r_head _ _ HR) as HH.
  pose proof (r_alloc _ _ HR) as HAl.
  apply seg_app in HS as [HS1 HS2]. cbn [seg] in HS2. destruct HS2 as [_ HS2].
  destruct d.
  - (* detached: stays *)
    destruct c2 as [|[b [[bi bs] bd]] c2].
    + cbn [hd_addr]. eexists. exists (c1 ++ [(a, (id, s, true))]). split; [reflexivity|]. split.
      * constructor; cbn [l_heap l_alloc l_head]; auto.
        -- apply (r_seg _ _ HR).
        -- exact (r_nodup _ _ HR).
      * split; [rewrite chain_app; reflexivity|]. intros a' Q. injection Q as <-. exists c1, s, true, []. auto.
    + cbn [hd_addr]. eexists. exists (c1 ++ (a, (id, s, true)) :: (b, (bi, bs, true)) :: c2). split; [reflexivity|].
      assert (Hb1 : forall x, In x (map fst c1) -> x <> b).
      { intros x Hx. eapply nodup_app_ne; [exact ND|exact Hx|]. cbn. auto. }
      assert (ND2 : NoDup (a :: b :: map fst c2)).
      { apply NoDup_app_remove_l in ND. exact ND. }
      inversion ND2 as [|? ? N1 N2]; subst. inversion N2 as [|? ? N3 N4]; subst. cbn in N1.
      split.
      * constructor; cbn [l_heap l_alloc l_head].
        -- apply seg_app. cbn [seg hd_addr]. cbn [seg] in HS2. destruct HS2 as [HB HS2]. split; [|split; [|split]].
           ++ eapply seg_frame; [|exact HS1]. intros x Hx. apply set_prev_ne. auto.
           ++ rewrite set_prev_ne by (intros ->; tauto). exact HA.
           ++ erewrite set_prev_eq by exact HB. reflexivity.
           ++ eapply seg_frame; [|exact HS2]. intros x Hx. apply set_prev_ne. intros ->. tauto.
        -- rewrite HH. destruct c1 as [|[? ?] ?]; reflexivity.
        -- rewrite map_app. exact ND.
        -- intros x Hx. apply HAl. rewrite map_app in *. exact Hx.
        -- destruct c1 as [|[? [[? ?] ?]] ?]; exact HF.
      * split; [rewrite chain_app; reflexivity|]. intros a' Q. injection Q as <-. exists c1, s, true, ((b, (bi, bs, bd)) :: c2).
        split; [reflexivity|]. split; [exact Hn|]. rewrite !map_app. reflexivity.
  - (* unlinked *)
    destruct c1 as [|f c1']; [cbn in HF; discriminate|].
    destruct (last_split (f :: c1') None) as (c1 & k & [[ki ks] kd] & Ek & El); [discriminate|].
    rewrite Ek in *. clear Ek f c1'. rewrite El. cbn [hd_addr].
    apply seg_app in HS1 as [HS0 HS1]. cbn [hd_addr seg] in HS0, HS1. destruct HS1 as [HK _].
    rewrite map_app in ND. cbn [map fst] in ND. rewrite <- app_assoc in ND. cbn [app] in ND.
    assert (Hk1 : forall x, In x (map fst c1) -> x <> k /\ x <> a /\ forall y, In y (map fst c2) -> x <> y).
    { intros x Hx. repeat split; [..|intros y Hy]; (eapply nodup_app_ne; [exact ND|exact Hx|]); cbn; auto. }
    assert (ND2 : NoDup (k :: a :: map fst c2)) by (apply NoDup_app_remove_l in ND; exact ND).
    inversion ND2 as [|? ? N1 N2]; subst. inversion N2 as [|? ? N3 N4]; subst. cbn in N1.
    assert (ND' : NoDup (map fst c1 ++ k :: map fst c2)).
    { change (k :: a :: map fst c2) with ([k] ++ a :: map fst c2) in ND. rewrite app_assoc in ND.
      apply NoDup_remove_1 in ND. rewrite <- app_assoc in ND. exact ND. }
    destruct c2 as [|[b [[bi bs] bd]] c2].
    + cbn [hd_addr]. eexists. exists (c1 ++ [(k, (ki, ks, kd))]). split; [reflexivity|]. split.
      * constructor; cbn [l_heap l_alloc l_head].
        -- apply seg_app. cbn [seg hd_addr]. split; [|split; [|exact I]].
           ++ eapply seg_frame; [|exact HS0]. intros x Hx. rewrite set_next_ne; [reflexivity|]. exact (proj1 (Hk1 x Hx)).
           ++ erewrite set_next_eq by exact HK. reflexivity.
        -- rewrite HH. destruct c1 as [|[? ?] ?]; reflexivity.
        -- rewrite map_app. exact ND'.
        -- intros x Hx. apply HAl. rewrite map_app. apply in_or_app; left. exact Hx.
        -- destruct c1 as [|[? [[? ?] ?]] ?]; exact HF.
      * split; [cbn; rewrite app_nil_r; reflexivity|]. intros a' Q. injection Q as <-.
        exists (c1 ++ [(k, (ki, ks, kd))]), s, false, []. split; [reflexivity|]. split; [exact Hn|]. rewrite app_nil_r. reflexivity.
    + cbn [hd_addr]. eexists. exists (c1 ++ (k, (ki, ks, kd)) :: (b, (bi, bs, false)) :: c2). split; [reflexivity|].
      cbn [seg map fst] in HS2, N1, N3, N4, ND', Hk1. destruct HS2 as [HB HS2].
      inversion N4 as [|? ? N5 N6]; subst. cbn in N1, N3.
      assert (Hkb : k <> b) by (intros ->; tauto).
      split.
      * constructor; cbn [l_heap l_alloc l_head].
        -- apply seg_app. cbn [seg hd_addr]. split; [|split; [|split]].
           ++ eapply seg_frame; [|exact HS0]. intros x Hx. destruct (Hk1 x Hx) as (X1 & X2 & X3).
              rewrite set_prev_ne by (apply X3; left; reflexivity). apply set_next_ne. exact X1.
           ++ rewrite set_prev_ne by congruence. erewrite set_next_eq by exact HK. reflexivity.
           ++ erewrite set_prev_eq; [|rewrite set_next_ne by congruence; exact HB]. reflexivity.
           ++ eapply seg_frame; [|exact HS2]. intros x Hx. rewrite set_prev_ne, set_next_ne; [reflexivity| |].
              ** intros ->. tauto.
              ** intros ->. tauto.
        -- rewrite HH. destruct c1 as [|[? ?] ?]; reflexivity.
        -- rewrite map_app. exact ND'.
        -- intros x Hx. apply HAl. rewrite !map_app in *. cbn in *. rewrite in_app_iff in *. rewrite in_app_iff. cbn in *. tauto.
        -- destruct c1 as [|[? [[? ?] ?]] ?]; exact HF.
      * split; [rewrite !chain_app, <- app_assoc; reflexivity|]. intros a' Q. injection Q as <-.
        exists (c1 ++ [(k, (ki, ks, kd))]), s, false, ((b, (bi, bs, bd)) :: c2). split; [reflexivity|]. split; [exact Hn|].
        rewrite !map_app. cbn. rewrite <- app_assoc. reflexivity.
Qed.

Lemma Remove_repr : forall l c id, repr l c -> exists l' c', Remove l id = Some l' /\ repr l' c'
  /\ chain c' = chain_remove (chain c) id.
Proof. intros l c id H. destruct (Remove_repr_addr l c id H) as (l' & c' & A & B & C & _). exists l', c'. auto. Qed.

Lemma run_repr : forall (ops : list (lop S)) l c, repr l c -> exists l' c', lrun l ops = Some l' /\ repr l' c'
  /\ chain c' = fold_left chain_op ops (chain c).
Proof.
  induction ops as [|[id s|id] ops IH]; intros l c HR; cbn [lrun fold_left].
  - exists l, c. auto.
  - destruct (Add_repr l c id s HR) as (l1 & c1 & -> & HR1 & E1).
    destruct (IH l1 c1 HR1) as (l2 & c2 & E2 & HR2 & E3). exists l2, c2. rewrite E1 in E3. auto.
  - destruct (Remove_repr l c id HR) as (l1 & c1 & -> & HR1 & E1).
    destruct (IH l1 c1 HR1) as (l2 & c2 & E2 & HR2 & E3). exists l2, c2. rewrite E1 in E3. auto.
Qed.

Theorem refinement : forall (ops : list (lop S)), exists l, lrun empty_lookup ops = Some l
  /\ forall id, Get l id = Some (chain_get (chain_after ops) id).
Proof.
  intros ops. destruct (run_repr ops _ _ repr_empty) as (l & c & E & HR & EC).
  exists l. split; [exact E|]. intro id. rewrite (Get_repr l c id HR), EC. reflexivity.
Qed.

(** ---- the chain against the map ---- *)
Lemma chain_after_snoc : forall (ops : list (lop S)) op, chain_after (ops ++ [op]) = chain_op (chain_after ops) op.
Proof. intros. unfold chain_after. rewrite fold_left_app. reflexivity. Qed.
Lemma map_after_snoc : forall (ops : list (lop S)) op id, map_after (ops ++ [op]) id =
  match op with OAdd i s => if N.eqb i id then Some s else map_after ops id
              | ORemove i => if N.eqb i id then None else map_after ops id end.
Proof. intros. unfold map_after. rewrite fold_left_app. reflexivity. Qed.

Lemma oldest_app : forall (a b : list (lop S)), oldest (a ++ b) = match oldest a with Some x => Some x | None => oldest b end.
Proof. induction a as [|[id s|id] a IH]; intros; cbn; auto. Qed.

Definition ids (c : list (entry S)) : list N := map (fun e => fst (fst e)) c.

Lemma ids_detach : forall d c, ids (detach d c) = ids c.
Proof. destruct c as [|[[? ?] ?] ?]; reflexivity. Qed.
Lemma get_detach : forall d (c : list (entry S)) id, chain_get (detach d c) id = chain_get c id.
Proof. destruct c as [|[[? ?] ?] ?]; reflexivity. Qed.

(** The head entry of the chain is the oldest registration, whatever happens. *)
Lemma chain_head : forall ops : list (lop S), match oldest ops with
  | None => chain_after ops = []
  | Some (id, s) => exists c, chain_after ops = (id, s, true) :: c end.
Proof.
  induction ops as [|op ops IH] using rev_ind; [reflexivity|].
  rewrite chain_after_snoc, oldest_app. destruct (oldest ops) as [[id s]|].
  - destruct IH as [c ->]. destruct op as [i t|i]; cbn [chain_op].
    + exists (c ++ [(i, t, false)]). reflexivity.
    + cbn [chain_remove]. destruct (N.eqb id i); eexists; reflexivity.
  - rewrite IH. destruct op as [i t|i]; cbn; [eexists; reflexivity|reflexivity].
Qed.

Lemma oldest_forever : forall (ops : list (lop S)) id s, oldest ops = Some (id, s) ->
  exists l, lrun empty_lookup ops = Some l /\ Get l id = Some (Some s).
Proof.
  intros ops id s H. destruct (refinement ops) as (l & E & G). exists l. split; [exact E|].
  rewrite G. pose proof (chain_head ops) as HC. rewrite H in HC. destruct HC as [c ->]. cbn. rewrite N.eqb_refl. reflexivity.
Qed.

(** Good histories. *)
Definition tail_attached (c : list (entry S)) : Prop :=
  match c with [] => True | _ :: c' => Forall (fun e => snd e = false) c' end.

Lemma get_in : forall (c : list (entry S)) id, chain_get c id <> None <-> In id (ids c).
Proof.
  induction c as [|[[i s] d] c IH]; intros id; cbn; [tauto|].
  destruct (N.eqb_spec i id) as [->|N0]; [intuition discriminate|]. rewrite IH. intuition.
Qed.

Lemma get_snoc : forall (c : list (entry S)) id s d id', chain_get (c ++ [(id, s, d)]) id' =
  match chain_get c id' with Some x => Some x | None => if N.eqb id id' then Some s else None end.
Proof.
  induction c as [|[[i t] e] c IH]; intros; cbn; [reflexivity|]. destruct (N.eqb i id'); [reflexivity|apply IH].
Qed.

Lemma get_not_in : forall (c : list (entry S)) id, ~ In id (ids c) -> chain_get c id = None.
Proof. intros c id H. destruct (chain_get c id) eqn:E; [|reflexivity]. exfalso; apply H, get_in; congruence. Qed.

Lemma remove_attached : forall (c : list (entry S)) id, NoDup (ids c) -> Forall (fun e => snd e = false) c ->
  Forall (fun e => snd e = false) (chain_remove c id) /\ NoDup (ids (chain_remove c id))
  /\ (forall x, In x (ids (chain_remove c id)) -> In x (ids c))
  /\ forall id', chain_get (chain_remove c id) id' = if N.eqb id id' then None else chain_get c id'.
Proof.
  induction c as [|[[i s] d] c IH]; intros id ND HF; cbn [chain_remove].
  - repeat split; auto. intros id'; cbn. destruct (N.eqb id id'); reflexivity.
  - cbn in ND. apply NoDup_cons_iff in ND as [N1 N2]. apply Forall_cons_iff in HF as [F1 F2]. cbn in F1. subst d.
    destruct (N.eqb_spec i id) as [->|Hne].
    + repeat split.
      * destruct c as [|[[? ?] ?] c]; [constructor|]. apply Forall_cons_iff in F2 as [? ?]. constructor; auto.
      * rewrite ids_detach. exact N2.
      * rewrite ids_detach. cbn. auto.
      * intros id'. rewrite get_detach. cbn. destruct (N.eqb_spec id id') as [<-|]; [apply get_not_in; exact N1|reflexivity].
    + destruct (IH id N2 F2) as (A & B & C & D). repeat split.
      * constructor; auto.
      * cbn. constructor; [|exact B]. intro X. apply N1, C, X.
      * cbn. intros x [->|X]; auto.
      * intros id'. cbn [chain_get]. rewrite D. destruct (N.eqb_spec i id') as [->|]; [|reflexivity].
        destruct (N.eqb_spec id id') as [->|]; [congruence|reflexivity].
Qed.

Lemma good_history : forall (ops : list (lop S)), fresh_adds ops -> ~ removes_oldest ops ->
  NoDup (ids (chain_after ops)) /\ tail_attached (chain_after ops)
  /\ forall id, chain_get (chain_after ops) id = map_after ops id.
Proof.
  induction ops as [|op ops IH] using rev_ind; intros HF HO.
  - cbn. split; [constructor|]. split; [exact I|reflexivity].
  - assert (HF' : fresh_adds ops).
    { intros pre id s post ->. eapply HF. rewrite <- app_assoc. reflexivity. }
    assert (HO' : ~ removes_oldest ops).
    { intros (pre & id & s & post & -> & Ho). apply HO. exists pre, id, s, (post ++ [op]). rewrite <- app_assoc. auto. }
    destruct (IH HF' HO') as (ND & TA & GM). rewrite chain_after_snoc. pose proof (chain_head ops) as HC.
    destruct op as [i t|i]; cbn [chain_op].
    + pose proof (HF ops i t [] eq_refl) as Hfr. rewrite <- GM in Hfr.
      assert (Hni : ~ In i (ids (chain_after ops))) by (intro X; apply get_in in X; congruence).
      unfold chain_add. repeat split.
      * unfold ids. rewrite map_app. cbn. apply NoDup_snoc; auto.
      * destruct (chain_after ops) as [|e c]; cbn; [constructor|]. apply Forall_app. split; [exact TA|]. repeat constructor.
      * intro id. rewrite map_after_snoc, get_snoc, GM. destruct (N.eqb_spec i id) as [->|]; [rewrite <- GM, Hfr; reflexivity|].
        destruct (map_after ops id); reflexivity.
    + destruct (oldest ops) as [[id0 s0]|] eqn:Eo.
      * destruct HC as [c Ec]. rewrite Ec in *. cbn in ND, TA. apply NoDup_cons_iff in ND as [N1 N2].
        assert (Hne : id0 <> i).
        { intros ->. apply HO. exists ops, i, s0, []. auto. }
        cbn [chain_remove]. destruct (N.eqb_spec id0 i) as [|_]; [congruence|].
        destruct (remove_attached c i N2 TA) as (A & B & C & D). repeat split.
        -- cbn. constructor; [|exact B]. intro X; apply N1, C, X.
        -- exact A.
        -- intro id. rewrite map_after_snoc. cbn [chain_get]. rewrite D, <- GM. cbn [chain_get].
           destruct (N.eqb_spec id0 id) as [->|]; [|reflexivity]. destruct (N.eqb_spec i id) as [->|]; [congruence|reflexivity].
      * rewrite HC in *. cbn. repeat split; [constructor|]. intro id. rewrite map_after_snoc, <- GM. cbn.
        destruct (N.eqb i id); reflexivity.
Qed.

Theorem map_iff : forall (ops : list (lop S)), fresh_adds ops ->
  ((forall pre post id, ops = pre ++ post -> exists l, lrun empty_lookup pre = Some l /\ Get l id = Some (map_after pre id))
   <-> ~ removes_oldest ops).
Proof.
  intros ops HF. split.
  - intros H (pre & id & s & post & -> & Ho).
    destruct (H (pre ++ [ORemove id]) post id) as (l & E & G); [rewrite <- app_assoc; reflexivity|].
    destruct (oldest_forever (pre ++ [ORemove id]) id s) as (l' & E' & G'); [rewrite oldest_app, Ho; reflexivity|].
    rewrite map_after_snoc, N.eqb_refl in G. congruence.
  - intros HO pre post id ->. destruct (refinement pre) as (l & E & G). exists l. split; [exact E|]. rewrite G.
    f_equal. apply good_history.
    + intros p i s q ->. eapply HF. rewrite <- app_assoc. reflexivity.
    + intros (p & i & s & q & -> & Ho). apply HO. exists p, i, s, (q ++ post). rewrite <- app_assoc. auto.
Qed.

End Proofs.
