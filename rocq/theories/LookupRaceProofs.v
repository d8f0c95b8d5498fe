(** Calls of the registry made at the same time take effect one after the other. *)
From Coq Require Import List NArith Bool Arith Lia.
From Verif Require Import Base LookupModel LookupSpec LookupProofs LookupRaceModel LookupRaceSpec.
Import ListNotations.
Open Scope nat_scope.

Section Proofs.
Context {S : Type}.
Notation heap := (nat -> option (node S)).
Notation cell := (nat * entry S)%type.
Notation hist_t := (list (nat * lop S)).
Implicit Types (c : list cell).

(** ---- lists ---- *)
Lemma set_nth_length : forall A (l : list A) i x, length (set_nth l i x) = length l.
Proof. induction l as [|y l IH]; intros [|i] x; cbn; auto. Qed.
Lemma set_nth_eq : forall A (l : list A) i x y, nth_error l i = Some y -> nth_error (set_nth l i x) i = Some x.
Proof. induction l as [|z l IH]; intros [|i] x y H; cbn in *; try discriminate; eauto. Qed.
Lemma set_nth_ne : forall A (l : list A) i j x, i <> j -> nth_error (set_nth l i x) j = nth_error l j.
Proof. induction l as [|z l IH]; intros [|i] [|j] x H; cbn; auto; try lia. Qed.
Lemma firstn_app_le : forall A (l m : list A) k, k <= length l -> firstn k (l ++ m) = firstn k l.
Proof. intros. rewrite firstn_app. replace (k - length l) with 0 by lia. cbn. apply app_nil_r. Qed.

(** ---- what a walker may rely on ---- *)
Definition others (id : N) (c : list cell) : Prop := forall e, In e (chain c) -> fst (fst e) <> id.
Definition at_ (hist : hist_t) (k : nat) (id : N) : option S := chain_get (chain_after (firstn k (map snd hist))) id.

Inductive ok (h : heap) (c : list cell) (nw : option nat) (hist : hist_t) (from : nat) (id : N) : option nat -> Prop :=
| ok_live : forall a e c1 c2, c = c1 ++ (a, e) :: c2 -> others id c1 -> ok h c nw hist from id (Some a)
| ok_end : forall k, from <= k -> k <= length hist -> at_ hist k id = None -> ok h c nw hist from id None
| ok_hit : forall a n k, h a = Some n -> n_id n = id -> from <= k -> k <= length hist ->
    at_ hist k id = Some (n_stream n) -> ok h c nw hist from id (Some a)
| ok_dead : forall a n, ~ In a (map fst c) -> Some a <> nw -> h a = Some n -> n_id n <> id ->
    ok h c nw hist from id (n_next n) -> ok h c nw hist from id (Some a).

Definition same (h h' : heap) (a : nat) : Prop :=
  forall n, h a = Some n -> exists n', h' a = Some n' /\ n_next n' = n_next n /\ n_id n' = n_id n /\ n_stream n' = n_stream n.
Definition keeps (h h' : heap) (a : nat) : Prop :=
  forall n, h a = Some n -> exists n', h' a = Some n' /\ n_id n' = n_id n /\ n_stream n' = n_stream n.

Lemma at_app : forall hist ops k id, k <= length hist -> at_ (hist ++ ops) k id = at_ hist k id.
Proof. intros. unfold at_. rewrite map_app, firstn_app_le; [reflexivity|]. rewrite map_length. assumption. Qed.
Lemma at_all : forall hist id, at_ hist (length hist) id = chain_get (chain_after (map snd hist)) id.
Proof. intros. unfold at_. rewrite <- (map_length snd). rewrite firstn_all. reflexivity. Qed.

Definition settle (pc : rpc S) (l : lookup S) : lookup S :=
  match pc with
  | RBack a => match l_heap l a with
               | Some n => match n_next n with Some q => with_heap l (set_prev (l_heap l) q (n_prev n)) | None => l end
               | None => l end
  | _ => l
  end.
Definition unpub (pc : rpc S) : option nat :=
  match pc with AHead a => Some a | AFirst a => Some a | AWalk a _ => Some a | APrev a _ => Some a | APub a _ => Some a
  | _ => None end.

Record sh (l ls : lookup S) (c : list cell) (hist : hist_t) : Prop := {
  s_repr : repr ls c;
  s_alloc : l_alloc ls = l_alloc l;
  s_head : l_head ls = l_head l;
  s_same : forall a, same (l_heap ls) (l_heap l) a;
  s_chain : chain c = chain_after (map snd hist);
  s_mono : forall a n b, l_heap l a = Some n -> n_next n = Some b -> a < b /\ b < l_alloc l;
  s_dom : forall a n, l_heap l a = Some n -> a < l_alloc l
}.

Lemma seg_live : forall h p c1 a i s d c2, seg h p (c1 ++ (a, (i, s, d)) :: c2) None ->
  h a = Some (mkNode (if d then None else last_addr c1 p) (hd_addr (S:=S) c2 None) i s).
Proof. intros. apply seg_app in H as [_ [H _]]. exact H. Qed.

Lemma live_node : forall l ls c hist c1 a i s d c2, sh l ls c hist -> c = c1 ++ (a, (i, s, d)) :: c2 ->
  exists n, l_heap l a = Some n /\ n_next n = hd_addr c2 None /\ n_id n = i /\ n_stream n = s.
Proof.
  intros l ls c hist c1 a i s d c2 H ->. pose proof (seg_live _ _ _ _ _ _ _ _ (r_seg _ _ (s_repr _ _ _ _ H))) as Q.
  destruct (s_same _ _ _ _ H a _ Q) as (n' & A & B & C & D). exists n'. auto.
Qed.

Lemma get_here : forall hist c c1 a i s d c2, chain c = chain_after (map snd hist) -> c = c1 ++ (a, (i, s, d)) :: c2 ->
  others i c1 -> at_ hist (length hist) i = Some s.
Proof.
  intros hist c c1 a i s d c2 H -> O. rewrite at_all, <- H, chain_app. etransitivity; [exact (get_skip (chain c1) _ i O)|]. cbn. rewrite N.eqb_refl. reflexivity.
Qed.
Lemma get_none : forall hist c id, chain c = chain_after (map snd hist) -> others id c -> at_ hist (length hist) id = None.
Proof.
  intros hist c id H O. rewrite at_all, <- H, <- (app_nil_r (chain c)). etransitivity; [exact (get_skip (chain c) _ id O)|]. reflexivity.
Qed.
Lemma others_snoc : forall id c a i s d, others id c -> i <> id -> others id (c ++ [(a, (i, s, d))]).
Proof.
  intros id c a i s d H N e He. rewrite chain_app in He. apply in_app_or in He as [He|[<-|[]]]; [auto|exact N].
Qed.

(** From a live node on. *)
Lemma ok_after : forall l ls c hist nw from id c1 a i s d c2, sh l ls c hist -> from <= length hist ->
  c = c1 ++ (a, (i, s, d)) :: c2 -> others id c1 -> i <> id ->
  ok (l_heap l) c nw hist from id (hd_addr c2 None).
Proof.
  intros l ls c hist nw from id c1 a i s d c2 H F E O N.
  destruct c2 as [|[b e] c2]; cbn [hd_addr].
  - apply ok_end with (length hist); [exact F|lia|]. apply get_none with c; [exact (s_chain _ _ _ _ H)|].
    rewrite E. apply others_snoc; assumption.
  - eapply ok_live with (c1 := c1 ++ [(a, (i, s, d))]); [rewrite E, <- app_assoc; reflexivity|]. apply others_snoc; assumption.
Qed.

(** One step of find, lookup.go:68-72. *)
Lemma ok_look : forall l ls c nw hist from id a, sh l ls c hist -> from <= length hist ->
  ok (l_heap l) c nw hist from id (Some a) -> exists n, l_heap l a = Some n
  /\ (n_id n = id -> exists k, from <= k <= length hist /\ at_ hist k id = Some (n_stream n))
  /\ (n_id n <> id -> ok (l_heap l) c nw hist from id (n_next n)).
Proof.
  intros l ls c nw hist from id a H F O. inversion O as [a' [[i s] d] c1 c2 E O1| |a' n k E1 E2 K1 K2 E3|a' n D1 D2 D3 D4 D5]; subst a'.
  - destruct (live_node _ _ _ _ _ _ _ _ _ _ H E) as (n & A & B & C & D). exists n. split; [exact A|]. split.
    + intros Q. exists (length hist). split; [lia|]. subst s. eapply get_here; [exact (s_chain _ _ _ _ H)|rewrite <- Q, C; exact E|].
      exact O1.
    + intros Q. rewrite B. eapply ok_after; [exact H|exact F|exact E|exact O1|congruence].
  - exists n. split; [exact E1|]. split; [|congruence]. intros _. exists k. auto.
  - exists n. split; [exact D3|]. split; [congruence|auto].
Qed.
Lemma ok_nil : forall h c nw hist from id, ok h c nw hist from id None ->
  exists k, from <= k <= length hist /\ at_ hist k id = None.
Proof. intros h c nw hist from id H. inversion H as [|k A B C E| |]. exists k. auto. Qed.

Lemma ok_head : forall l ls c nw hist from id, sh l ls c hist -> from <= length hist ->
  ok (l_heap l) c nw hist from id (l_head l).
Proof.
  intros l ls c nw hist from id H F. rewrite <- (s_head _ _ _ _ H), (r_head _ _ (s_repr _ _ _ _ H)).
  destruct c as [|[a e] c]; cbn [hd_addr].
  - apply ok_end with (length hist); [exact F|lia|]. eapply get_none; [exact (s_chain _ _ _ _ H)|]. intros e [].
  - apply ok_live with e [] c; [reflexivity|]. intros x [].
Qed.

(** Walkers keep what they rely on while others write. *)
Definition evolves (h : heap) (c : list cell) nw hist (h' : heap) (c' : list cell) nw' hist' : Prop :=
  forall from id p, from <= length hist -> ok h c nw hist from id p -> ok h' c' nw' hist' from id p.

Lemma evolve_same : forall h c nw hist h' nw' ops, (forall a, same h h' a) ->
  (forall a, Some a <> nw -> h a <> None -> Some a <> nw') ->
  evolves h c nw hist h' c nw' (hist ++ ops).
Proof.
  intros h c nw hist h' nw' ops HS HN from id p F O.
  induction O as [a e c1 c2 E O1|k A B C|a n k A B C D E|a n D1 D2 D3 D4 D5 IH].
  - eapply ok_live; eauto.
  - apply ok_end with k; [exact A|rewrite app_length; lia|rewrite at_app; auto].
  - destruct (HS a n A) as (n' & X1 & X2 & X3 & X4). eapply ok_hit with (n := n') (k := k); [exact X1|congruence|exact C|rewrite app_length; lia|].
    rewrite at_app by exact D. rewrite X4. exact E.
  - destruct (HS a n D3) as (n' & X1 & X2 & X3 & X4). eapply ok_dead; [exact D1|apply HN; [exact D2|congruence]|exact X1|congruence|].
    rewrite X2. exact IH.
Qed.

(** Only the flags of the cells differ. *)
Definition bare (c : list cell) : list (nat * (N * S)) := map (fun x => (fst x, fst (snd x))) c.
Lemma bare_split : forall c c' c1 a e c2, bare c' = bare c -> c = c1 ++ (a, e) :: c2 ->
  exists c1' e' c2', c' = c1' ++ (a, e') :: c2' /\ bare c1' = bare c1 /\ fst e' = fst e /\ bare c2' = bare c2.
Proof.
  intros c c' c1 a e c2 H ->. revert c' H. induction c1 as [|x c1 IH]; intros [|y c'] H; try discriminate.
  - cbn in H. injection H as H1 H2 H3. destruct y as [b e']. cbn in *. subst b. exists [], e', c'. auto.
  - cbn in H. injection H as H1 H2 H3. destruct (IH c' H3) as (c1' & e' & c2' & -> & A & B & C).
    exists (y :: c1'), e', c2'. split; [reflexivity|]. split; [|auto]. unfold bare in *. cbn [map]. rewrite A, H1, H2. reflexivity.
Qed.
Lemma bare_others : forall id c c', bare c' = bare c -> others id c -> others id c'.
Proof.
  intros id c. induction c as [|[a e] c IH]; intros [|[a' e'] c'] H O; try discriminate; [exact O|].
  cbn in H. injection H as H1 H2 H3. intros x [<-|Hx]; [cbn; rewrite H2; apply O; left; reflexivity|].
  eapply IH; [exact H3| |exact Hx]. intros y Hy. apply O. right. exact Hy.
Qed.
Lemma bare_addr : forall c, map fst (bare c) = map fst c.
Proof. intros. unfold bare. rewrite map_map. reflexivity. Qed.

Lemma evolve_flags : forall h c c' nw hist hist', bare c' = bare c -> hist' = hist ->
  evolves h c nw hist h c' nw hist'.
Proof.
  intros h c c' nw hist hist' HB -> from id p F O.
  induction O as [a e c1 c2 E O1|k A B C|a n k A B C D E|a n D1 D2 D3 D4 D5 IH].
  - destruct (bare_split _ _ _ _ _ _ HB E) as (c1' & e' & c2' & E' & B1 & _ & _). eapply ok_live; [exact E'|].
    eapply bare_others; eauto.
  - eapply ok_end; eauto.
  - eapply ok_hit; eauto.
  - eapply ok_dead; eauto. rewrite <- bare_addr, HB, bare_addr. exact D1.
Qed.

(** A node is appended. *)
Lemma evolve_add : forall h c hist h' x b o, (forall a, ~ In a (map fst c) -> same h h' a) ->
  (forall a, keeps h h' a) -> ~ In b (map fst c) -> fst x = b ->
  evolves h c (Some b) hist h' (c ++ [x]) None (hist ++ [o]).
Proof.
  intros h c hist h' x b o HS HK HB Hx from id p F O.
  induction O as [a e c1 c2 E O1|k A B C|a n k A B C D E|a n D1 D2 D3 D4 D5 IH].
  - eapply ok_live with (c1 := c1); [rewrite E, <- app_assoc; reflexivity|exact O1].
  - apply ok_end with k; [exact A|rewrite app_length; lia|rewrite at_app; auto].
  - destruct (HK a n A) as (n' & X1 & X3 & X4). eapply ok_hit with (n := n') (k := k); [exact X1|congruence|exact C|rewrite app_length; lia|].
    rewrite at_app by exact D. rewrite X4. exact E.
  - destruct (HS a D1 n D3) as (n' & X1 & X2 & X3 & X4). eapply ok_dead; [|discriminate|exact X1|congruence|].
    + rewrite map_app. intro Q. apply in_app_or in Q as [Q|[Q|[]]]; [auto|]. congruence.
    + rewrite X2. exact IH.
Qed.

(** A node is unlinked. *)
Lemma evolve_cut : forall l ls c hist l' c' c1 x i s d c2 o, sh l ls c hist ->
  c = c1 ++ (x, (i, s, d)) :: c2 -> NoDup (map fst c) -> bare c' = bare (c1 ++ c2) ->
  chain c' = chain_after (map snd (hist ++ [o])) ->
  (forall a, Some a <> last_addr c1 None -> same (l_heap l) (l_heap l') a) -> (forall a, keeps (l_heap l) (l_heap l') a) ->
  evolves (l_heap l) c None hist (l_heap l') c' None (hist ++ [o]).
Proof.
  intros l ls c hist l' c' c1 x i s d c2 o H E ND HB HC HS HK from id p F O.
  assert (AD : map fst c' = map fst c1 ++ map fst c2) by (rewrite <- bare_addr, HB, bare_addr; apply map_app).
  induction O as [a e d1 d2 E' O1|k A B C|a n k A B C D E'|a n D1 D2 D3 D4 D5 IH].
  - rewrite E' in E.
    assert (T : (exists g, d1 = c1 ++ (x, (i, s, d)) :: g /\ c2 = g ++ (a, e) :: d2)
                \/ (d1 = c1 /\ a = x /\ e = (i, s, d) /\ d2 = c2)
                \/ (exists g, c1 = d1 ++ (a, e) :: g /\ d2 = g ++ (x, (i, s, d)) :: c2)).
    { clear - E. revert c1 E. induction d1 as [|y d1 IH]; intros [|z c1] E; cbn in E; injection E as E1 E2.
      - right; left. subst. auto.
      - right; right. subst. exists c1. auto.
      - left. subst. exists d1. auto.
      - destruct (IH c1 E2) as [(g & G1 & G2)|[(G1 & G2 & G3 & G4)|(g & G1 & G2)]]; subst.
        + left. exists g. auto.
        + right; left. auto.
        + right; right. exists g. auto. }
    destruct T as [(g & G1 & G2)|[(G1 & G2 & G3 & G4)|(g & G1 & G2)]].
    + subst c2. assert (E2 : c1 ++ g ++ (a, e) :: d2 = (c1 ++ g) ++ (a, e) :: d2) by apply app_assoc.
      destruct (bare_split _ _ _ _ _ _ HB E2) as (c1' & e' & c2' & E3 & B1 & _ & _). eapply ok_live; [exact E3|].
      eapply bare_others; [exact B1|]. intros y Hy. rewrite chain_app in Hy. apply O1. subst d1. rewrite chain_app.
      apply in_app_or in Hy as [Hy|Hy]; apply in_or_app; [left; exact Hy|right; right; exact Hy].
    + subst. clear E.
      assert (NL : Some x <> last_addr c1 None).
      { intro Q. rewrite map_app in ND. apply NoDup_remove_2 in ND. apply ND, in_or_app. left.
        destruct c1 as [|f c1]; [discriminate|]. destruct (last_split (f :: c1) None) as (g & b & eb & G1 & G2); [discriminate|].
        rewrite G2 in Q. injection Q as <-. rewrite G1, map_app. apply in_or_app. right. left. reflexivity. }
      destruct (live_node _ _ _ _ _ _ _ _ _ _ H eq_refl) as (n & A1 & A2 & A3 & A4).
      destruct (HS x NL n A1) as (n' & X1 & X2 & X3 & X4).
      destruct (N.eq_dec i id) as [->|N0].
      * eapply ok_hit with (k := length hist); [exact X1|congruence|exact F|rewrite app_length; lia|].
        rewrite at_app by lia. rewrite X4, A4. eapply get_here; [exact (s_chain _ _ _ _ H)|reflexivity|exact O1].
      * apply ok_dead with n'; [|discriminate|exact X1|congruence|].
        -- rewrite AD. rewrite map_app in ND. apply NoDup_remove_2 in ND. exact ND.
        -- rewrite X2, A2. destruct c2 as [|[b eb] c2]; cbn [hd_addr].
           ++ apply ok_end with (length (hist ++ [o])); [rewrite app_length; lia|lia|]. eapply get_none; [exact HC|].
              eapply bare_others; [exact HB|]. rewrite app_nil_r. exact O1.
           ++ destruct (bare_split _ _ c1 b eb c2 HB eq_refl) as (c1' & e' & c2' & E3 & B1 & _ & _). eapply ok_live; [exact E3|].
              eapply bare_others; eauto.
    + subst c1. assert (E2 : (d1 ++ (a, e) :: g) ++ c2 = d1 ++ (a, e) :: (g ++ c2)) by (rewrite <- app_assoc; reflexivity).
      destruct (bare_split _ _ _ _ _ _ HB E2) as (c1' & e' & c2' & E3 & B1 & _ & _). eapply ok_live; [exact E3|].
      eapply bare_others; eauto.
  - apply ok_end with k; [exact A|rewrite app_length; lia|rewrite at_app; auto].
  - destruct (HK a n A) as (n' & X1 & X3 & X4). eapply ok_hit with (n := n') (k := k); [exact X1|congruence|exact C|rewrite app_length; lia|].
    rewrite at_app by exact D. rewrite X4. exact E'.
  - assert (NL : Some a <> last_addr c1 None).
    { intro Q. apply D1. rewrite E, map_app. apply in_or_app. left.
      destruct c1 as [|f c1]; [discriminate|]. destruct (last_split (f :: c1) None) as (g & b & eb & G1 & G2); [discriminate|].
      rewrite G2 in Q. injection Q as <-. rewrite G1, map_app. apply in_or_app. right. left. reflexivity. }
    destruct (HS a NL n D3) as (n' & X1 & X2 & X3 & X4). eapply ok_dead; [|discriminate|exact X1|congruence|].
    + rewrite AD. intro Q. apply D1. rewrite E, map_app. cbn. apply in_app_or in Q as [Q|Q]; apply in_or_app; cbn; auto.
    + rewrite X2. exact IH.
Qed.

(** ---- the holder of the mutex ---- *)
Definition locked (pc : rpc S) : bool :=
  match pc with
  | ANew | AHead _ | AFirst _ | AWalk _ _ | APrev _ _ | APub _ _ | ATail _ => true
  | RHead | RAt _ | RNext _ | RCut _ | RBack _ | WUnlock => true
  | _ => false
  end.

Definition fresh_node (l : lookup S) c (cl : rcall S) (a : nat) (pv : option nat) : Prop :=
  exists id s, cl = CAdd id s /\ l_heap l a = Some (mkNode pv None id s) /\ l_alloc l = Datatypes.S a /\ ~ In a (map fst c).

Definition lk (l : lookup S) c (cl : rcall S) (pc : rpc S) : Prop :=
  match pc with
  | ANew => exists id s, cl = CAdd id s
  | AHead a => fresh_node l c cl a None
  | AFirst a => fresh_node l c cl a None /\ c = []
  | AWalk a cur => fresh_node l c cl a None /\ In cur (map fst c)
  | APrev a cur => fresh_node l c cl a None /\ last_addr c None = Some cur
  | APub a cur => fresh_node l c cl a (Some cur) /\ last_addr c None = Some cur
  | ATail _ => exists id s, cl = CAdd id s
  | RHead => exists id, cl = CRemove id
  | RAt p => exists id, cl = CRemove id /\ exists c1 c2, c = c1 ++ c2 /\ others id c1 /\ p = hd_addr c2 None
  | RNext a => exists id, cl = CRemove id /\ exists c1 e c2, c = c1 ++ (a, e) :: c2 /\ others id (c1 ++ [(a, e)])
  | RCut a => exists id, cl = CRemove id /\ cfind c id = Some a
  | RBack a => exists id n, cl = CRemove id /\ l_heap l a = Some n
  | WUnlock => writes cl <> None
  | _ => False
  end.

Lemma same_refl : forall (h : heap) a, same h h a.
Proof. intros h a n H. exists n. auto. Qed.
Lemma same_keeps : forall (h h' : heap) a, same h h' a -> keeps h h' a.
Proof. intros h h' a H n Q. destruct (H n Q) as (n' & A & _ & B & C). exists n'. auto. Qed.
Lemma same_set_prev : forall (h : heap) q p a, same h (set_prev h q p) a.
Proof.
  intros h q p a n H. destruct (Nat.eq_dec a q) as [->|N0].
  - exists (mkNode p (n_next n) (n_id n) (n_stream n)). rewrite (set_prev_eq _ _ _ _ H). auto.
  - exists n. rewrite set_prev_ne by exact N0. auto.
Qed.
Lemma same_unset_prev : forall (h : heap) q p a, same (set_prev h q p) h a.
Proof.
  intros h q p a n H. destruct (Nat.eq_dec a q) as [->|N0].
  - destruct (h q) as [m|] eqn:E; [|unfold set_prev in H; rewrite E in H; congruence].
    rewrite (set_prev_eq _ _ _ _ E) in H. injection H as <-. exists m. auto.
  - rewrite set_prev_ne in H by exact N0. exists n. auto.
Qed.
Lemma same_upd : forall (h : heap) b n a, h b = None -> same h (upd h b n) a.
Proof. intros h b n a E m H. exists m. rewrite upd_ne; [auto|]. intros ->. congruence. Qed.
Lemma same_set_next : forall (h : heap) b p a, a <> b -> same h (set_next h b p) a.
Proof. intros h b p a N0 n H. exists n. rewrite set_next_ne by exact N0. auto. Qed.
Lemma keeps_set_next : forall (h : heap) b p a, keeps h (set_next h b p) a.
Proof.
  intros h b p a n H. destruct (Nat.eq_dec a b) as [->|N0].
  - exists (mkNode (n_prev n) p (n_id n) (n_stream n)). rewrite (set_next_eq _ _ _ _ H). auto.
  - exists n. rewrite set_next_ne by exact N0. auto.
Qed.

Lemma repr_frame : forall l l' c, repr l c -> (forall a, In a (map fst c) -> l_heap l' a = l_heap l a) ->
  l_alloc l <= l_alloc l' -> l_head l' = l_head l -> repr l' c.
Proof.
  intros l l' c [A B C D E] H1 H2 H3. constructor; auto.
  - eapply seg_frame; eauto.
  - congruence.
  - intros a Ha. specialize (D a Ha). lia.
Qed.

Lemma last_in_addr : forall c a, last_addr c None = Some a -> exists c1 e, c = c1 ++ [(a, e)].
Proof.
  intros c a H. destruct c as [|x c]; [discriminate|].
  destruct (last_split (x :: c) None) as (c1 & b & e & E1 & E2); [discriminate|]. rewrite H in E2. injection E2 as <-.
  exists c1, e. exact E1.
Qed.

Lemma sh_refl : forall l c hist, repr l c -> chain c = chain_after (map snd hist) ->
  (forall a n b, l_heap l a = Some n -> n_next n = Some b -> a < b /\ b < l_alloc l) ->
  (forall a n, l_heap l a = Some n -> a < l_alloc l) -> sh l l c hist.
Proof. intros. constructor; auto. intro a. apply same_refl. Qed.

(** The node [a] is appended behind [cur]: lookup.go:42. *)
Lemma pub_repr : forall l c cur a id s, repr l c -> l_heap l a = Some (mkNode (Some cur) None id s) ->
  l_alloc l = Datatypes.S a -> ~ In a (map fst c) -> last_addr c None = Some cur ->
  repr (with_heap l (set_next (l_heap l) cur (Some a))) (c ++ [(a, (id, s, false))]).
Proof.
  intros l c cur a id s HR HA HL HN HC. destruct (last_in_addr _ _ HC) as (c1 & [[ki ks] kd] & ->).
  pose proof (r_nodup _ _ HR) as ND. pose proof (r_seg _ _ HR) as HS. apply seg_app in HS as [HS1 [HS2 _]].
  assert (NC : a <> cur).
  { intros ->. apply HN. rewrite map_app. apply in_or_app; right; left; reflexivity. }
  constructor; cbn [with_heap l_heap l_alloc l_head].
  - rewrite <- app_assoc. apply seg_app. cbn [hd_addr app seg] in *. split; [|split; [|split; [|exact I]]].
    + eapply seg_frame; [|exact HS1]. intros b Hb. apply set_next_ne. intros ->.
      rewrite map_app in ND. cbn in ND. apply NoDup_remove_2 in ND. rewrite app_nil_r in ND. auto.
    + erewrite set_next_eq by exact HS2. reflexivity.
    + rewrite set_next_ne by exact NC. exact HA.
  - rewrite (r_head _ _ HR). destruct c1 as [|[b eb] c1]; reflexivity.
  - rewrite map_app. apply NoDup_snoc; [exact ND|exact HN].
  - intros b Hb. rewrite map_app in Hb. apply in_app_or in Hb as [Hb|[<-|[]]]; [|cbn; lia].
    exact (r_alloc _ _ HR b Hb).
  - pose proof (r_first _ _ HR) as F. destruct c1 as [|[b [[? ?] ?]] c1]; exact F.
Qed.

Lemma cells_ext : forall c c', map fst c = map fst c' -> map fst (chain c) = map fst (chain c') -> bare c = bare c'.
Proof.
  induction c as [|[a e] c IH]; intros [|[a' e'] c'] A B; try discriminate; [reflexivity|].
  cbn in A, B. injection A as A1 A2. injection B as B1 B2. unfold bare in *. cbn [map fst snd]. rewrite A1, B1, (IH c' A2 B2). reflexivity.
Qed.
Lemma fst_detach : forall d (c : list (entry S)), map fst (detach d c) = map fst c.
Proof. destruct c as [|[[? ?] ?] ?]; reflexivity. Qed.

(** lookup.go:56-64. *)
Lemma cut_repr : forall l c id a n, repr l c -> cfind c id = Some a -> l_heap l a = Some n ->
  exists c' c1 s d c2,
  repr (settle (RBack a) (with_heap l (match n_prev n with Some p => set_next (l_heap l) p (n_next n) | None => l_heap l end))) c'
  /\ chain c' = chain_remove (chain c) id /\ c = c1 ++ (a, (id, s, d)) :: c2 /\ others id c1
  /\ n_prev n = (if d then None else last_addr c1 None) /\ n_next n = hd_addr c2 None
  /\ bare c' = bare (if d then c else c1 ++ c2).
Proof.
  intros l c id a n HR HF HA. destruct (Remove_repr_addr l c id HR) as (l' & c' & E & HR' & HC & HX).
  destruct (HX a HF) as (c1 & s & d & c2 & Ec & Ho & Ha). exists c', c1, s, d, c2.
  unfold Remove in E. rewrite (find_repr _ _ _ HR), HF, HA in E. injection E as <-.
  pose proof (r_seg _ _ HR) as HS. rewrite Ec in HS. pose proof (seg_live _ _ _ _ _ _ _ _ HS) as HN.
  rewrite HA in HN. injection HN as ->. cbn [n_prev n_next] in *.
  assert (NP : forall p, (if d then None else last_addr c1 None) = Some p -> p <> a).
  { intros p Q ->. destruct d; [discriminate|]. destruct (last_in_addr _ _ Q) as (g & eg & ->).
    pose proof (r_nodup _ _ HR) as ND. rewrite Ec, map_app in ND. apply NoDup_remove_2 in ND. apply ND, in_or_app. left.
    rewrite map_app. apply in_or_app. right. left. reflexivity. }
  split; [|split; [exact HC|]].
  - unfold settle. cbn [with_heap l_heap].
    assert (HA' : (match (if d then None else last_addr c1 None) with
                   | Some p => set_next (l_heap l) p (hd_addr c2 None) | None => l_heap l end) a
                  = Some (mkNode (if d then None else last_addr c1 None) (hd_addr c2 None) id s)).
    { destruct (if d then None else last_addr c1 None) as [p|] eqn:Q; [|exact HA].
      rewrite set_next_ne; [exact HA|]. intro X. apply (NP p eq_refl). auto. }
    rewrite HA'. cbn [n_next n_prev]. destruct (hd_addr c2 None); exact HR'.
  - split; [exact Ec|]. split; [exact Ho|]. split; [reflexivity|]. split; [reflexivity|].
    apply cells_ext; [exact Ha|].
    assert (EC : chain c = chain c1 ++ (id, s, d) :: chain c2) by (rewrite Ec; exact (chain_app c1 _)).
    assert (ED : chain (c1 ++ c2) = chain c1 ++ chain c2) by exact (chain_app c1 c2).
    rewrite HC, EC, (remove_skip (chain c1) _ id Ho). cbn [chain_remove]. rewrite N.eqb_refl. destruct d.
    + etransitivity; [|exact (f_equal (map fst) (eq_sym EC))]. rewrite !map_app. cbn [map fst]. rewrite fst_detach. reflexivity.
    + etransitivity; [|exact (f_equal (map fst) (eq_sym ED))]. rewrite !map_app, fst_detach. reflexivity.
Qed.

Lemma heap_dec : forall l c, repr l c -> forall a, In a (map fst c) -> exists n, l_heap l a = Some n.
Proof.
  intros l c HR a Ha. apply in_map_iff in Ha as ([b [[i s] d]] & <- & Hb). apply in_split in Hb as (c1 & c2 & ->).
  eexists. exact (seg_live _ _ _ _ _ _ _ _ (r_seg _ _ HR)).
Qed.

Lemma evolve_nothing : forall (h : heap) c nw hist nw', (forall a, Some a <> nw -> h a <> None -> Some a <> nw') ->
  evolves h c nw hist h c nw' (hist ++ []).
Proof. intros. apply evolve_same; [intro; apply same_refl|assumption]. Qed.

Lemma wstep : forall l c hist cl i pc lock l' lock' pc' ops, locked pc = true -> sh l (settle pc l) c hist -> lk l c cl pc ->
  effect cl i pc l lock = Some (l', lock', pc', ops) ->
  exists c', sh l' (settle pc' l') c' (hist ++ ops)
  /\ (locked pc' = true /\ lk l' c' cl pc' /\ lock' = lock \/ pc' = WDone /\ lock' = None)
  /\ evolves (l_heap l) c (unpub pc) hist (l_heap l') c' (unpub pc') (hist ++ ops).
Proof.
  intros l c hist cl i pc lock l' lock' pc' ops HL HS HK HE.
  assert (HSr : pc <> RBack 0 -> (forall a, pc <> RBack a) -> repr l c).
  { intros _ N0. pose proof (s_repr _ _ _ _ HS) as R. destruct pc; try exact R. destruct (N0 a eq_refl). }
  pose proof (s_chain _ _ _ _ HS) as HC. pose proof (s_mono _ _ _ _ HS) as HM. pose proof (s_dom _ _ _ _ HS) as HD.
  destruct pc; try discriminate HL; cbn [effect] in HE; cbn [lk] in HK.
  - (* ANew *)
    destruct HK as (id & s & ->). injection HE as <- <- <- <-. exists c. specialize (HSr ltac:(discriminate) ltac:(discriminate)).
    assert (HF : l_heap l (l_alloc l) = None) by (destruct (l_heap l (l_alloc l)) eqn:Q; [specialize (HD _ _ Q); lia|reflexivity]).
    assert (HI : forall a, In a (map fst c) -> a <> l_alloc l) by (intros a Ha ->; pose proof (r_alloc _ _ HSr _ Ha); lia).
    split; [|split].
    + cbn [settle]. apply sh_refl; cbn [l_heap l_alloc].
      * eapply repr_frame; [exact HSr| |cbn; lia|reflexivity]. intros a Ha. cbn [l_heap]. apply upd_ne. auto.
      * rewrite app_nil_r. exact HC.
      * intros a n b Q1 Q2. destruct (Nat.eq_dec a (l_alloc l)) as [->|N0].
        -- rewrite upd_eq in Q1. injection Q1 as <-. discriminate.
        -- rewrite upd_ne in Q1 by exact N0. specialize (HM _ _ _ Q1 Q2). lia.
      * intros a n Q1. destruct (Nat.eq_dec a (l_alloc l)) as [->|N0]; [lia|]. rewrite upd_ne in Q1 by exact N0.
        specialize (HD _ _ Q1). lia.
    + left. split; [reflexivity|]. split; [|reflexivity]. cbn [lk]. exists id, s. cbn [l_heap l_alloc]. rewrite upd_eq.
      repeat split; auto. intro Q. exact (HI _ Q eq_refl).
    + apply evolve_same; [intro; apply same_upd; exact HF|]. cbn [unpub]. intros a _ Q X. injection X as ->. auto.
  - (* AHead *)
    injection HE as <- <- <- <-. exists c. specialize (HSr ltac:(discriminate) ltac:(discriminate)).
    pose proof (r_head _ _ HSr) as HH. split; [|split].
    + rewrite app_nil_r. destruct (l_head l); exact HS.
    + left. destruct c as [|[b e] c]; cbn [hd_addr] in HH; rewrite HH; cbn [locked lk]; repeat split; auto. cbn. auto.
    + apply evolve_nothing. destruct (l_head l); cbn [unpub]; auto.
  - (* AFirst *)
    destruct HK as [(id & s & -> & HA & HAl & HN) ->]. injection HE as <- <- <- <-.
    exists [(a, (id, s, true))]. specialize (HSr ltac:(discriminate) ltac:(discriminate)). split; [|split].
    + cbn [settle]. apply sh_refl; cbn [l_heap l_alloc]; auto.
      * constructor; cbn; auto; [repeat constructor; cbn; tauto|]. intros b [<-|[]]. lia.
      * rewrite map_app. cbn [map snd]. rewrite chain_after_snoc, <- HC. reflexivity.
    + left. cbn. repeat split; auto. exists id, s. reflexivity.
    + cbn [unpub]. apply (evolve_add (l_heap l) []); auto; intro; [intros _; apply same_refl|apply same_keeps, same_refl].
  - (* AWalk *)
    destruct HK as [HF HI]. specialize (HSr ltac:(discriminate) ltac:(discriminate)).
    apply in_map_iff in HI as ([b [[bi bs] bd]] & Eb & Hb). cbn in Eb. subst b. apply in_split in Hb as (c1 & c2 & Ec).
    destruct (live_node _ _ _ _ _ _ _ _ _ _ HS Ec) as (n & A1 & A2 & A3 & A4). rewrite A1 in HE. injection HE as <- <- <- <-.
    exists c. rewrite A2. split; [|split].
    + rewrite app_nil_r. destruct (hd_addr c2 None); exact HS.
    + left. destruct c2 as [|[b2 e2] c2]; cbn [hd_addr locked lk]; repeat split; auto.
      * rewrite Ec, last_addr_app. reflexivity.
      * rewrite Ec, map_app. apply in_or_app. right. right. left. reflexivity.
    + apply evolve_nothing. destruct (hd_addr c2 None); cbn [unpub]; auto.
  - (* APrev *)
    destruct HK as [(id & s & -> & HA & HAl & HN) HLa]. injection HE as <- <- <- <-. specialize (HSr ltac:(discriminate) ltac:(discriminate)).
    exists c. split; [|split].
    + cbn [settle]. apply sh_refl; cbn [with_heap l_heap l_alloc].
      * eapply repr_frame; [exact HSr| |cbn; lia|reflexivity]. intros x Hx. apply set_prev_ne. intros ->. auto.
      * rewrite app_nil_r. exact HC.
      * intros x n y Q1 Q2. destruct (same_unset_prev _ _ _ _ _ Q1) as (n' & X1 & X2 & _). eapply HM; [exact X1|congruence].
      * intros x n Q1. destruct (same_unset_prev _ _ _ _ _ Q1) as (n' & X1 & _). eapply HD; exact X1.
    + left. cbn [locked lk]. repeat split; auto. exists id, s. cbn [with_heap l_heap l_alloc]. rewrite (set_prev_eq _ _ _ _ HA). auto.
    + apply evolve_same; [intro; apply same_set_prev|]. cbn [unpub]. auto.
  - (* APub *)
    destruct HK as [(id & s & -> & HA & HAl & HN) HLa]. injection HE as <- <- <- <-. specialize (HSr ltac:(discriminate) ltac:(discriminate)).
    exists (c ++ [(a, (id, s, false))]). destruct (last_in_addr _ _ HLa) as (c1 & e1 & Ec).
    assert (HI : In cur (map fst c)) by (rewrite Ec, map_app; apply in_or_app; right; left; reflexivity).
    split; [|split].
    + cbn [settle]. apply sh_refl; cbn [with_heap l_heap l_alloc].
      * apply pub_repr; assumption.
      * rewrite map_app. cbn [map snd]. rewrite chain_after_snoc, <- HC, chain_app. cbn [chain_op]. unfold chain_add.
        destruct c as [|x c]; [discriminate HLa|]. reflexivity.
      * intros x n y Q1 Q2. destruct (Nat.eq_dec x cur) as [->|N0].
        -- destruct (heap_dec _ _ HSr _ HI) as (m & Em). rewrite (set_next_eq _ _ _ _ Em) in Q1. injection Q1 as <-. cbn in Q2.
           injection Q2 as <-. pose proof (r_alloc _ _ HSr _ HI). assert (cur <> a) by (intros ->; auto). lia.
        -- rewrite set_next_ne in Q1 by exact N0. eauto.
      * intros x n Q1. destruct (Nat.eq_dec x cur) as [->|N0]; [exact (r_alloc _ _ HSr _ HI)|].
        rewrite set_next_ne in Q1 by exact N0. eauto.
    + left. cbn. repeat split; auto. exists id, s. reflexivity.
    + cbn [unpub]. apply evolve_add; auto; [intros x Hx|intro x].
      * apply same_set_next. intros ->. auto.
      * apply keeps_set_next.
  - (* ATail *)
    destruct HK as (id & s & ->). injection HE as <- <- <- <-. exists c. specialize (HSr ltac:(discriminate) ltac:(discriminate)). split; [|split].
    + rewrite app_nil_r. cbn [settle]. apply sh_refl; cbn [l_heap l_alloc]; auto. eapply repr_frame; [exact HSr|reflexivity|cbn; lia|reflexivity].
    + left. cbn. repeat split; auto. discriminate.
    + apply evolve_nothing. cbn [unpub]. auto.
  - (* RHead *)
    destruct HK as (id & ->). injection HE as <- <- <- <-. exists c. specialize (HSr ltac:(discriminate) ltac:(discriminate)). split; [|split].
    + rewrite app_nil_r. exact HS.
    + left. cbn. repeat split; auto. exists id. split; [reflexivity|]. exists [], c. split; [reflexivity|]. split; [intros e []|].
      exact (r_head _ _ HSr).
    + apply evolve_nothing. cbn [unpub]. auto.
  - (* RAt *)
    destruct HK as (id & -> & c1 & c2 & Ec & Ho & ->). specialize (HSr ltac:(discriminate) ltac:(discriminate)).
    destruct c2 as [|[a [[ai as_] ad]] c2]; cbn [hd_addr] in HE.
    + injection HE as <- <- <- <-. exists c. rewrite app_nil_r in Ec. subst c1. split; [|split].
      * cbn [settle]. apply sh_refl; auto. rewrite map_app. cbn [map snd call_id]. rewrite chain_after_snoc, <- HC. cbn [chain_op].
        pose proof (remove_skip (chain c) [] id Ho) as Q. cbn [chain_remove] in Q. rewrite !app_nil_r in Q. symmetry. exact Q.
      * left. cbn. repeat split; auto. discriminate.
      * apply evolve_same; [intro; apply same_refl|]. cbn [unpub]. auto.
    + destruct (live_node _ _ _ _ _ _ _ _ _ _ HS Ec) as (n & A1 & A2 & A3 & A4). rewrite A1, A3 in HE. cbn [call_id] in HE.
      injection HE as <- <- <- <-. exists c. destruct (N.eqb_spec ai id) as [->|N0].
      * split; [|split].
        -- rewrite app_nil_r. exact HS.
        -- left. cbn. repeat split; auto. exists id. split; [reflexivity|]. rewrite Ec. clear - Ho.
           induction c1 as [|[b [[bi bs] bd]] c1 IH]; cbn; [rewrite N.eqb_refl; reflexivity|].
           destruct (N.eqb_spec bi id) as [->|_]; [exfalso; apply (Ho (id, bs, bd)); [left; reflexivity|reflexivity]|].
           apply IH. intros e He. apply Ho. right. exact He.
        -- apply evolve_nothing. cbn [unpub]. auto.
      * split; [|split].
        -- rewrite app_nil_r. exact HS.
        -- left. cbn. repeat split; auto. exists id. split; [reflexivity|]. exists c1, (ai, as_, ad), c2. split; [exact Ec|].
           apply others_snoc; assumption.
        -- apply evolve_nothing. cbn [unpub]. auto.
  - (* RNext *)
    destruct HK as (id & -> & c1 & [[ai as_] ad] & c2 & Ec & Ho). destruct (live_node _ _ _ _ _ _ _ _ _ _ HS Ec) as (n & A1 & A2 & A3 & A4).
    rewrite A1 in HE. injection HE as <- <- <- <-. exists c. split; [|split].
    + rewrite app_nil_r. exact HS.
    + left. cbn. repeat split; auto. exists id. split; [reflexivity|]. eexists. exists c2. split; [|split; [exact Ho|exact A2]].
      rewrite Ec, <- app_assoc. reflexivity.
    + apply evolve_nothing. cbn [unpub]. auto.
  - (* RCut *)
    destruct HK as (id & -> & HF). specialize (HSr ltac:(discriminate) ltac:(discriminate)).
    destruct (cfind_split _ _ _ HF) as (c1 & ii & s & d & c2 & Ec & -> & Ho).
    destruct (live_node _ _ _ _ _ _ _ _ _ _ HS Ec) as (n & A1 & A2 & A3 & A4). rewrite A1 in HE. injection HE as <- <- <- <-.
    destruct (cut_repr l c id a n HSr HF A1) as (c' & d1 & t & dd & d2 & HR' & HC' & Ec' & Ho' & Hp & Hn & Hb).
    set (h1 := match n_prev n with Some p => set_next (l_heap l) p (n_next n) | None => l_heap l end) in *.
    assert (NP : forall p, n_prev n = Some p -> p <> a /\ exists m, l_heap l p = Some m /\ p < a).
    { intros p Q. rewrite Q in Hp. destruct dd; [discriminate|]. symmetry in Hp. destruct (last_in_addr _ _ Hp) as (g & [[gi gs] gd] & ->).
      assert (Ec2 : c = g ++ (p, (gi, gs, gd)) :: (a, (id, t, false)) :: d2) by (rewrite Ec', <- app_assoc; reflexivity).
      destruct (live_node _ _ _ _ _ _ _ _ _ _ HS Ec2) as (m & M1 & M2 & _). cbn [hd_addr] in M2.
      destruct (HM _ _ _ M1 M2) as [L _]. split; [lia|]. exists m. auto. }
    assert (HCh : chain c' = chain_after (map snd (hist ++ [(i, ORemove (call_id (CRemove (S:=S) id)))]))).
    { rewrite map_app. cbn [map snd call_id]. rewrite chain_after_snoc, <- HC. exact HC'. }
    exists c'. split; [|split].
    + assert (HV : forall q, same (l_heap (settle (RBack a) (with_heap l h1))) (l_heap (with_heap l h1)) q).
      { intro q. unfold settle. destruct (l_heap (with_heap l h1) a) as [n1|]; [|apply same_refl].
        destruct (n_next n1); [apply same_unset_prev|apply same_refl]. }
      constructor; auto.
      * unfold settle. destruct (l_heap (with_heap l h1) a) as [n1|]; [|reflexivity]. destruct (n_next n1); reflexivity.
      * unfold settle. destruct (l_heap (with_heap l h1) a) as [n1|]; [|reflexivity]. destruct (n_next n1); reflexivity.
      * cbn [with_heap l_heap l_alloc]. unfold h1. destruct (n_prev n) as [p|] eqn:Q; [|exact HM].
        destruct (NP p eq_refl) as (N0 & m & Em & Lp). intros x nx y Q1 Q2. destruct (Nat.eq_dec x p) as [->|N1].
        -- rewrite (set_next_eq _ _ _ _ Em) in Q1. injection Q1 as <-. cbn in Q2. destruct (HM _ _ _ A1 Q2). lia.
        -- rewrite set_next_ne in Q1 by exact N1. eauto.
      * cbn [with_heap l_heap l_alloc]. unfold h1. destruct (n_prev n) as [p|] eqn:Q; [|exact HD].
        destruct (NP p eq_refl) as (N0 & m & Em & Lp). intros x nx Q1. destruct (Nat.eq_dec x p) as [->|N1]; [eauto|].
        rewrite set_next_ne in Q1 by exact N1. eauto.
    + left. cbn [locked lk]. repeat split; auto. exists id. cbn [with_heap l_heap]. unfold h1. destruct (n_prev n) as [p|] eqn:Q.
      * exists n. split; [reflexivity|]. rewrite set_next_ne; [exact A1|]. intro X. exact (proj1 (NP p eq_refl) (eq_sym X)).
      * exists n. auto.
    + cbn [unpub with_heap l_heap]. destruct dd.
      * assert (h1 = l_heap l) as -> by (unfold h1; rewrite Hp; reflexivity).
        intros from idx p F O. eapply evolve_flags; [exact Hb|reflexivity|rewrite app_length; lia|].
        eapply evolve_same; [intro; apply same_refl| |exact F|exact O]. auto.
      * change h1 with (l_heap (with_heap l h1)). eapply (evolve_cut l); [exact HS|exact Ec'|exact (r_nodup _ _ HSr)|exact Hb|exact HCh| |].
        -- intros x Hx. cbn [with_heap l_heap]. unfold h1. rewrite Hp. destruct (last_addr d1 None) as [p|]; [|apply same_refl].
           apply same_set_next. congruence.
        -- intros x. cbn [with_heap l_heap]. unfold h1. rewrite Hp. destruct (last_addr d1 None) as [p|];
             [apply keeps_set_next|apply same_keeps, same_refl].
  - (* RBack *)
    destruct HK as (id & n & -> & HA). rewrite HA in HE. injection HE as <- <- <- <-. exists c.
    assert (HX : with_heap l (match n_next n with Some q => set_prev (l_heap l) q (n_prev n) | None => l_heap l end) = settle (RBack a) l).
    { cbn [settle]. rewrite HA. destruct (n_next n); [reflexivity|]. destruct l; reflexivity. }
    split; [|split].
    + cbn [settle]. rewrite HX, app_nil_r. apply sh_refl; auto.
      * exact (s_repr _ _ _ _ HS).
      * intros x nx y Q1 Q2. destruct (s_same _ _ _ _ HS _ _ Q1) as (n' & X1 & X2 & _). rewrite (s_alloc _ _ _ _ HS). eapply HM; [exact X1|congruence].
      * intros x nx Q1. destruct (s_same _ _ _ _ HS _ _ Q1) as (n' & X1 & _). rewrite (s_alloc _ _ _ _ HS). eapply HD; exact X1.
    + left. cbn. repeat split; auto. discriminate.
    + apply evolve_same; [|cbn [unpub]; auto]. intro x. cbn [with_heap l_heap]. destruct (n_next n); [apply same_set_prev|apply same_refl].
  - (* WUnlock *)
    injection HE as <- <- <- <-. exists c. split; [|split].
    + rewrite app_nil_r. exact HS.
    + right. auto.
    + apply evolve_nothing. cbn [unpub]. auto.
Qed.

Lemma effect_keeps : forall cl i pc l lock l' lock' pc' ops, (forall a n, l_heap l a = Some n -> a < l_alloc l) ->
  effect cl i pc l lock = Some (l', lock', pc', ops) -> forall a, keeps (l_heap l) (l_heap l') a.
Proof.
  intros cl i pc l lock l' lock' pc' ops HD HE a.
  assert (R : keeps (l_heap l) (l_heap l) a) by (apply same_keeps, same_refl).
  destruct pc as [|[q|]|q| | | |q|q|q q'|q q'|q q'|q| | |[q|]|q|q|q| | |]; cbn [effect] in HE;
    try discriminate HE;
    try (injection HE as <- <- <- <-; exact R);
    try (destruct (l_heap l q) eqn:Q; injection HE as <- <- <- <-; exact R);
    try (destruct lock; [discriminate HE|]; injection HE as <- <- <- <-; exact R).
  - destruct cl; try discriminate. injection HE as <- <- <- <-. apply same_keeps, same_upd.
    destruct (l_heap l (l_alloc l)) eqn:Q; [specialize (HD _ _ Q); lia|reflexivity].
  - destruct cl; try discriminate. injection HE as <- <- <- <-. exact R.
  - destruct (l_heap l q') eqn:Q; injection HE as <- <- <- <-; exact R.
  - injection HE as <- <- <- <-. apply same_keeps, same_set_prev.
  - destruct cl; try discriminate. injection HE as <- <- <- <-. apply keeps_set_next.
  - destruct (l_heap l q) as [n|] eqn:Q; injection HE as <- <- <- <-; [|exact R]. cbn [with_heap l_heap].
    destruct (n_prev n); [apply keeps_set_next|exact R].
  - destruct (l_heap l q) as [n|] eqn:Q; injection HE as <- <- <- <-; [|exact R]. cbn [with_heap l_heap].
    destruct (n_next n); [apply same_keeps, same_set_prev|exact R].
Qed.

(** ---- all goroutines together ---- *)
Definition holder (w : world S) : rpc S :=
  match w_lock w with
  | None => WDone
  | Some i => match nth_error (w_ths w) i with Some t => t_pc t | None => WDone end
  end.

Definition tinv (l : lookup S) c nw (hist : hist_t) (t : rthread S) : Prop :=
  t_from t <= t_till t /\ t_till t <= length hist /\
  match t_pc t with
  | GHead => exists id, t_call t = CGet id
  | GAt p => exists id, t_call t = CGet id /\ ok (l_heap l) c nw hist (t_from t) id p
  | GNext a => exists id, t_call t = CGet id /\ ok (l_heap l) c nw hist (t_from t) id (Some a)
                 /\ exists n, l_heap l a = Some n /\ n_id n <> id
  | GDone r => exists id, t_call t = CGet id /\ exists k, t_from t <= k /\ k <= t_till t /\ r = at_ hist k id
  | ALock => exists id s, t_call t = CAdd id s
  | RLock => exists id, t_call t = CRemove id
  | WDone => writes (t_call t) <> None
  | Crash => False
  | pc => lk l c (t_call t) pc
  end.

Record inv (w : world S) c : Prop := {
  v_sh : sh (w_l w) (settle (holder w) (w_l w)) c (w_hist w);
  v_locked : forall i t, nth_error (w_ths w) i = Some t -> locked (t_pc t) = true -> w_lock w = Some i;
  v_lock : forall i, w_lock w = Some i -> exists t, nth_error (w_ths w) i = Some t /\ locked (t_pc t) = true;
  v_thr : forall i t, nth_error (w_ths w) i = Some t -> tinv (w_l w) c (unpub (holder w)) (w_hist w) t
}.

Lemma tinv_evolve : forall l c nw hist l' c' nw' ops t, tinv l c nw hist t -> locked (t_pc t) = false ->
  evolves (l_heap l) c nw hist (l_heap l') c' nw' (hist ++ ops) -> (forall a, keeps (l_heap l) (l_heap l') a) ->
  tinv l' c' nw' (hist ++ ops) t.
Proof.
  intros l c nw hist l' c' nw' ops t (F & T & H) L E K. split; [exact F|]. split; [rewrite app_length; lia|].
  destruct (t_pc t); try discriminate L; try exact H.
  - destruct H as (id & A & B). exists id. split; [exact A|]. apply E; [lia|exact B].
  - destruct H as (id & A & B & n & C & D). exists id. split; [exact A|]. split; [apply E; [lia|exact B]|].
    destruct (K a n C) as (n' & X1 & X2 & _). exists n'. split; [exact X1|congruence].
  - destruct H as (id & A & k & B & C & D). exists id. split; [exact A|]. exists k. split; [exact B|]. split; [exact C|].
    rewrite at_app by lia. exact D.
Qed.

Lemma evolve_refl : forall (h : heap) c nw hist, evolves h c nw hist h c nw (hist ++ []).
Proof. intros. apply evolve_nothing. auto. Qed.

Lemma inv0 : inv world0 [].
Proof.
  constructor; cbn.
  - apply sh_refl; cbn; auto; try discriminate. exact repr_empty.
  - intros [|i]; discriminate.
  - discriminate.
  - intros [|i]; discriminate.
Qed.

Lemma holder_app : forall w c x, inv w c -> holder (mkW (w_l w) (w_lock w) (w_ths w ++ x) (w_hist w)) = holder w.
Proof.
  intros w c x H. unfold holder. cbn. destruct (w_lock w) as [i|] eqn:Q; [|reflexivity].
  destruct (v_lock _ _ H i Q) as (t & A & _). rewrite nth_error_app1; [reflexivity|]. apply nth_error_Some. congruence.
Qed.

Lemma call_inv : forall w c cl, inv w c -> inv (call w cl) c.
Proof.
  intros w c cl H. unfold call. pose proof (holder_app w c [mkT cl (entry_pc cl) (length (w_hist w)) (length (w_hist w)) 0] H) as HH.
  constructor; rewrite ?HH; cbn [w_l w_lock w_ths w_hist].
  - exact (v_sh _ _ H).
  - intros i t Q L. destruct (lt_dec i (length (w_ths w))) as [Hl|Hl].
    + rewrite nth_error_app1 in Q by exact Hl. eapply v_locked; eauto.
    + rewrite nth_error_app2 in Q by lia. destruct (i - length (w_ths w)) as [|[|]]; try discriminate. injection Q as <-.
      destruct cl; discriminate.
  - intros i Q. destruct (v_lock _ _ H i Q) as (t & A & B). exists t. split; [|exact B]. rewrite nth_error_app1; [exact A|].
    apply nth_error_Some. congruence.
  - intros i t Q. destruct (lt_dec i (length (w_ths w))) as [Hl|Hl].
    + rewrite nth_error_app1 in Q by exact Hl. eapply v_thr; eauto.
    + rewrite nth_error_app2 in Q by lia. destruct (i - length (w_ths w)) as [|[|]]; try discriminate. injection Q as <-.
      split; [cbn; lia|]. split; [cbn; lia|]. destruct cl; cbn; eauto.
Qed.

Lemma step_inv : forall w c i w', inv w c -> tstep w i = Some w' -> exists c', inv w' c'.
Proof.
  intros w c i w' H HE. unfold tstep in HE. destruct (nth_error (w_ths w) i) as [t|] eqn:Ht; [|discriminate].
  destruct (effect (t_call t) i (t_pc t) (w_l w) (w_lock w)) as [[[[l' lock'] pc'] ops]|] eqn:HF; [|discriminate].
  injection HE as <-. pose proof (v_thr _ _ H i t Ht) as HT. pose proof (v_sh _ _ H) as HS.
  pose proof (effect_keeps _ _ _ _ _ _ _ _ _ (s_dom _ _ _ _ HS) HF) as HKp.
  set (t' := mkT (t_call t) pc' (t_from t) (length (w_hist w ++ ops)) (Datatypes.S (t_steps t))).
  set (w' := mkW l' lock' (set_nth (w_ths w) i t') (w_hist w ++ ops)).
  assert (Hi : nth_error (w_ths w') i = Some t') by (eapply set_nth_eq; exact Ht).
  assert (Hj : forall j, j <> i -> nth_error (w_ths w') j = nth_error (w_ths w) j) by (intros; apply set_nth_ne; auto).
  destruct HT as (TF & TT & HT).
  assert (FL : t_from t' <= t_till t' /\ t_till t' <= length (w_hist w ++ ops)) by (cbn; rewrite app_length; lia).
  destruct (locked (t_pc t)) eqn:HL.
  - (* the holder *)
    pose proof (v_locked _ _ H i t Ht HL) as Lk.
    assert (HH : holder w = t_pc t) by (unfold holder; rewrite Lk, Ht; reflexivity). rewrite HH in HS.
    assert (HKt : lk (w_l w) c (t_call t) (t_pc t)) by (destruct (t_pc t); try discriminate HL; exact HT).
    destruct (wstep _ _ _ _ _ _ _ _ _ _ _ HL HS HKt HF) as (c' & S' & HK' & EV). exists c'.
    assert (HH' : settle (holder w') l' = settle pc' l' /\ unpub (holder w') = unpub pc').
    { destruct HK' as [(L' & _ & ->)|(-> & ->)].
      - unfold holder. cbn [w_lock w']. rewrite Lk, Hi. auto.
      - auto. }
    destruct HH' as [HH1 HH2].
    constructor; cbn [w_l w_hist w'].
    + rewrite HH1. exact S'.
    + intros j x Q L. destruct (Nat.eq_dec j i) as [->|N0].
      * rewrite Hi in Q. injection Q as <-. cbn in L. destruct HK' as [(L' & _ & ->)|(-> & ->)]; [exact Lk|discriminate].
      * rewrite Hj in Q by exact N0. pose proof (v_locked _ _ H j x Q L). congruence.
    + intros j Q. cbn [w_lock w'] in Q. destruct HK' as [(L' & _ & ->)|(-> & ->)]; [|discriminate].
      rewrite Lk in Q. injection Q as <-. exists t'. auto.
    + intros j x Q. destruct (Nat.eq_dec j i) as [->|N0].
      * rewrite Hi in Q. injection Q as <-. split; [apply FL|]. split; [apply FL|]. cbn [t_pc t' t_call].
        destruct HK' as [(L' & K' & _)|(-> & _)]; [destruct pc'; try discriminate L'; exact K'|].
        destruct (t_pc t); cbn [effect] in HF; try discriminate HF; repeat match type of HF with
          | context [match ?y with _ => _ end] => destruct y; try discriminate HF end; exact HT.
      * rewrite Hj in Q by exact N0. rewrite HH2. pose proof (v_thr _ _ H j x Q) as TX. rewrite HH in TX.
        eapply tinv_evolve; [exact TX| |exact EV|exact HKp].
        destruct (locked (t_pc x)) eqn:Lx; [|reflexivity]. pose proof (v_locked _ _ H j x Q Lx). congruence.
  - (* not the holder *)
    exists c.
    assert (Hn : w_lock w <> Some i).
    { intro Q. destruct (v_lock _ _ H i Q) as (x & A & B). rewrite Ht in A. injection A as <-. congruence. }
    assert (TR : ops = [] /\ l' = w_l w /\ ((lock' = w_lock w /\ locked pc' = false) \/ (w_lock w = None /\ lock' = Some i /\ locked pc' = true))
                 /\ unpub pc' = None /\ settle pc' l' = l').
    { destruct (t_pc t) as [|[q|]|q| | | | | | | | | | | | | | | | | |]; try discriminate HL; cbn [effect] in HF; try discriminate HF.
      - injection HF as <- <- <- <-. auto 10.
      - destruct (l_heap (w_l w) q) as [n|]; injection HF as <- <- <- <-; [destruct (N.eqb _ _)|]; auto 10.
      - injection HF as <- <- <- <-. auto 10.
      - destruct (l_heap (w_l w) q); injection HF as <- <- <- <-; auto 10.
      - destruct (w_lock w); [discriminate HF|]. injection HF as <- <- <- <-. auto 10.
      - destruct (w_lock w); [discriminate HF|]. injection HF as <- <- <- <-. auto 10. }
    destruct TR as (-> & -> & LC & UP & SE).
    assert (HH' : settle (holder w') (w_l w) = settle (holder w) (w_l w) /\ unpub (holder w') = unpub (holder w)).
    { destruct LC as [(-> & _)|(Q & -> & _)].
      - unfold holder. cbn [w_lock w']. destruct (w_lock w) as [j|] eqn:Q; [|auto]. rewrite Hj by congruence. auto.
      - unfold holder. rewrite Q. cbn [w_lock w']. rewrite Hi. cbn [t_pc t']. rewrite SE, UP. auto. }
    destruct HH' as [HH1 HH2].
    constructor; cbn [w_l w_hist w'].
    + rewrite HH1, app_nil_r. exact HS.
    + intros j x Q L. destruct (Nat.eq_dec j i) as [->|N0].
      * rewrite Hi in Q. injection Q as <-. cbn in L. destruct LC as [(_ & L')|(_ & -> & _)]; [congruence|reflexivity].
      * rewrite Hj in Q by exact N0. pose proof (v_locked _ _ H j x Q L). cbn [w_lock w']. destruct LC as [(-> & _)|(Q2 & _)]; congruence.
    + intros j Q. cbn [w_lock w'] in Q. destruct LC as [(-> & L')|(Q1 & -> & L')].
      * destruct (v_lock _ _ H j Q) as (x & A & B). exists x. rewrite Hj by congruence. auto.
      * injection Q as <-. exists t'. auto.
    + intros j x Q. rewrite HH2. destruct (Nat.eq_dec j i) as [->|N0].
      2:{ rewrite Hj in Q by exact N0. pose proof (v_thr _ _ H j x Q) as TX.
          destruct (locked (t_pc x)) eqn:Lx; [rewrite app_nil_r; exact TX|].
          eapply tinv_evolve; [exact TX|exact Lx|apply evolve_refl|intro; apply same_keeps, same_refl]. }
      rewrite Hi in Q. injection Q as <-. split; [apply FL|]. split; [apply FL|]. clear FL. cbn [t_pc t' t_call t_from t_till].
      rewrite app_nil_r. assert (TFH : t_from t <= length (w_hist w)) by lia.
      destruct (t_pc t) as [|[q|]|q| | | | | | | | | | | | | | | | | |]; try discriminate HL; cbn [effect] in HF; try discriminate HF.
      * injection HF as <- <-. destruct HT as (id & A). exists id. split; [exact A|]. eapply ok_head; eauto.
      * destruct HT as (id & A & B). destruct (ok_look _ _ _ _ _ _ _ _ HS TFH B) as (n & C1 & C2 & C3). rewrite C1, A in HF. cbn [call_id] in HF.
        injection HF as <- <-. destruct (N.eqb_spec (n_id n) id) as [E|E].
        -- destruct (C2 E) as (k & K1 & K2). exists id. split; [exact A|]. exists k. split; [lia|]. split; [lia|]. auto.
        -- exists id. split; [exact A|]. split; [exact B|]. eauto.
      * destruct HT as (id & A & B). injection HF as <- <-. destruct (ok_nil _ _ _ _ _ _ B) as (k & K1 & K2).
        exists id. split; [exact A|]. exists k. split; [lia|]. split; [lia|]. auto.
      * destruct HT as (id & A & B & n & C & D). rewrite C in HF. injection HF as <- <-.
        destruct (ok_look _ _ _ _ _ _ _ _ HS TFH B) as (n' & C1 & C2 & C3). rewrite C in C1. injection C1 as <-.
        exists id. split; [exact A|]. apply C3. exact D.
      * destruct (w_lock w); [discriminate HF|]. injection HF as <- <-. exact HT.
      * destruct (w_lock w); [discriminate HF|]. injection HF as <- <-. exact HT.
Qed.

Lemma run_inv : forall ms w w' c, inv w c -> rrun w ms = Some w' -> exists c', inv w' c'.
Proof.
  induction ms as [|m ms IH]; intros w w' c H E; cbn in E; [injection E as <-; eauto|].
  destruct m as [cl|i]; cbn [rstep] in E.
  - eapply IH; [apply call_inv; exact H|exact E].
  - destruct (tstep w i) as [w1|] eqn:Q; [|discriminate]. destruct (step_inv _ _ _ _ H Q) as (c1 & H1). eapply IH; eauto.
Qed.
Lemma reach_inv : forall w, race_reach w -> exists c, inv w c.
Proof. intros w [ms E]. eapply run_inv; [exact inv0|exact E]. Qed.

(** ---- Get ---- *)
Lemma get_linear : forall (w : world S) i t id r, race_reach w -> runs w i t -> t_call t = CGet id -> t_pc t = GDone r ->
  exists k, during t k /\ exists l, lrun empty_lookup (firstn k (effects w)) = Some l /\ Get l id = Some r.
Proof.
  intros w i t id r HR Ht Hc Hp. destruct (reach_inv w HR) as (c & H). destruct (v_thr _ _ H i t Ht) as (_ & _ & T).
  rewrite Hp in T. destruct T as (id' & E & k & K1 & K2 & K3). rewrite Hc in E. injection E as <-.
  exists k. split; [split; assumption|]. destruct (refinement (firstn k (effects w))) as (l & L1 & L2). exists l. split; [exact L1|].
  rewrite L2. f_equal. symmetry. exact K3.
Qed.

Lemma get_map : forall (w : world S) i t id r, race_reach w -> runs w i t -> t_call t = CGet id -> t_pc t = GDone r ->
  fresh_adds (effects w) -> ~ removes_oldest (effects w) -> exists k, during t k /\ r = held w k id.
Proof.
  intros w i t id r HR Ht Hc Hp HF HO. destruct (get_linear w i t id r HR Ht Hc Hp) as (k & D & l & L1 & L2).
  exists k. split; [exact D|].
  pose proof (proj2 (map_iff (effects w) HF) HO (firstn k (effects w)) (skipn k (effects w)) id (eq_sym (firstn_skipn _ _))) as (l2 & M1 & M2).
  rewrite L1 in M1. injection M1 as <-. rewrite L2 in M2. injection M2 as M2. exact M2.
Qed.

Lemma state_seq : forall (w : world S), race_reach w -> w_lock w = None ->
  exists l, lrun empty_lookup (effects w) = Some l /\ forall id, Get (w_l w) id = Get l id.
Proof.
  intros w HR HL. destruct (reach_inv w HR) as (c & H). destruct (refinement (effects w)) as (l & L1 & L2). exists l. split; [exact L1|].
  intro id. rewrite L2. pose proof (v_sh _ _ H) as HS. unfold holder in HS. rewrite HL in HS. cbn [settle] in HS.
  rewrite (Get_repr _ _ id (s_repr _ _ _ _ HS)), (s_chain _ _ _ _ HS). reflexivity.
Qed.

Lemma no_crash : forall (w : world S) i t, race_reach w -> runs w i t -> t_pc t <> Crash.
Proof.
  intros w i t HR Ht E. destruct (reach_inv w HR) as (c & H). destruct (v_thr _ _ H i t Ht) as (_ & _ & T). rewrite E in T. exact T.
Qed.

(** ---- every goroutine can move ---- *)
Lemma holder_moves : forall l c cl i pc lock, locked pc = true -> lk l c cl pc -> effect cl i pc l lock <> None.
Proof.
  intros l c cl i pc lock HL HK.
  destruct pc as [|[q|]|q| | | |q|q|q q'|q q'|q q'|q| | |[q|]|q|q|q| | |]; try discriminate HL; cbn [effect lk] in *; try discriminate;
    try (destruct (l_heap l q); discriminate).
  - destruct HK as (id & s & ->). discriminate.
  - destruct HK as ((id & s & -> & _) & _). discriminate.
  - destruct (l_heap l q'); discriminate.
  - destruct HK as ((id & s & -> & _) & _). discriminate.
Qed.
Lemma reader_moves : forall cl i pc (l : lookup S) lock, (exists id, cl = CGet id) -> locked pc = false ->
  match pc with GDone _ | WDone | Crash | ALock | RLock => False | _ => True end -> effect cl i pc l lock <> None.
Proof.
  intros cl i pc l lock _ HL HP. destruct pc as [|[q|]|q| | | | | | | | | | | | | | | | | |]; try discriminate HL; try destruct HP;
    cbn [effect]; try discriminate; destruct (l_heap l q); discriminate.
Qed.

Lemma tstep_some : forall (w : world S) i t, runs w i t -> effect (t_call t) i (t_pc t) (w_l w) (w_lock w) <> None ->
  exists w', tstep w i = Some w'.
Proof.
  intros w i t Ht HE. unfold tstep. rewrite Ht. destruct (effect _ _ _ _ _) as [[[[? ?] ?] ?]|]; [eauto|congruence].
Qed.

Lemma get_moves : forall (w : world S) i t id, race_reach w -> runs w i t -> t_call t = CGet id -> ~ returned t ->
  exists w', tstep w i = Some w'.
Proof.
  intros w i t id HR Ht Hc HN. destruct (reach_inv w HR) as (c & H). destruct (v_thr _ _ H i t Ht) as (_ & _ & T).
  eapply tstep_some; [exact Ht|]. unfold returned in HN.
  destruct (locked (t_pc t)) eqn:L.
  - eapply holder_moves; [exact L|]. destruct (t_pc t); try discriminate L; exact T.
  - apply reader_moves; [eauto|exact L|]. destruct (t_pc t); try exact I; try (exact (HN I)); try discriminate L;
      try exact T; cbn in T; rewrite Hc in T; [destruct T as (? & ? & ?)|destruct T as (? & ?)]; discriminate.
Qed.

Lemma some_moves : forall (w : world S) i t, race_reach w -> runs w i t -> ~ returned t ->
  exists j w', tstep w j = Some w'.
Proof.
  intros w i t HR Ht HN. destruct (t_call t) as [id|id s|id] eqn:Hc.
  { exists i. eapply get_moves; eauto. }
  all: destruct (reach_inv w HR) as (c & H); destruct (v_thr _ _ H i t Ht) as (_ & _ & T);
    (destruct (w_lock w) as [j|] eqn:Q;
     [destruct (v_lock _ _ H j Q) as (x & A & L); destruct (v_thr _ _ H j x A) as (_ & _ & TX); exists j; eapply tstep_some; [exact A|];
      eapply holder_moves; [exact L|destruct (t_pc x); try discriminate L; exact TX]|]);
    exists i; (eapply tstep_some; [exact Ht|]); rewrite Q;
    (destruct (locked (t_pc t)) eqn:L; [pose proof (v_locked _ _ H i t Ht L); congruence|]);
    unfold returned in HN; destruct (t_pc t); try discriminate L; try (destruct (HN I)); try discriminate;
    try (destruct T as (? & E & _); rewrite Hc in E; discriminate); try (destruct T as (? & E); rewrite Hc in E; discriminate); destruct T.
Qed.

(** ---- each Add and Remove takes effect once, while it runs ---- *)
Definition committed (pc : rpc S) : bool := match pc with ATail _ | RBack _ | WUnlock | WDone => true | _ => false end.

Lemma effect_hist : forall l c nw hist t i lock l' lock' pc' ops, tinv l c nw hist t ->
  effect (t_call t) i (t_pc t) l lock = Some (l', lock', pc', ops) ->
  pc' = Crash \/ (ops = [] /\ committed pc' = committed (t_pc t))
  \/ exists o, ops = [(i, o)] /\ committed (t_pc t) = false /\ committed pc' = true /\ writes (t_call t) = Some o.
Proof.
  intros l c nw hist t i lock l' lock' pc' ops (_ & _ & T) HE.
  destruct (t_pc t) as [|[q|]|q| | | |q|q|q q'|q q'|q q'|q| | |[q|]|q|q|q| | |]; cbn [effect] in HE; try discriminate HE.
  - injection HE as <- <- <- <-. auto.
  - destruct (l_heap l q); injection HE as <- <- <- <-; [|auto]. right. left. destruct (N.eqb _ _); auto.
  - injection HE as <- <- <- <-. auto.
  - destruct (l_heap l q); injection HE as <- <- <- <-; auto.
  - destruct lock; [discriminate|]. injection HE as <- <- <- <-. auto.
  - destruct (t_call t); try discriminate. injection HE as <- <- <- <-. auto.
  - injection HE as <- <- <- <-. right; left. destruct (l_head l); auto.
  - destruct (t_call t); try discriminate. injection HE as <- <- <- <-. right; right. eexists. repeat split.
  - destruct (l_heap l q') as [n|]; injection HE as <- <- <- <-; [|auto]. right. left. destruct (n_next n); auto.
  - injection HE as <- <- <- <-. auto.
  - destruct (t_call t); try discriminate. injection HE as <- <- <- <-. right; right. eexists. repeat split.
  - injection HE as <- <- <- <-. auto.
  - destruct lock; [discriminate|]. injection HE as <- <- <- <-. auto.
  - injection HE as <- <- <- <-. auto.
  - destruct (l_heap l q) as [n|]; injection HE as <- <- <- <-; [|auto]. right. left. destruct (N.eqb _ _); auto.
  - injection HE as <- <- <- <-. cbn [lk] in T. destruct T as (id & E & _). rewrite E. right; right. eexists. repeat split.
  - destruct (l_heap l q) as [n|]; injection HE as <- <- <- <-; auto.
  - cbn [lk] in T. destruct T as (id & E & _). rewrite E in HE |- *.
    destruct (l_heap l q) as [n|]; injection HE as <- <- <- <-; [|auto]. right; right. eexists. repeat split.
  - destruct (l_heap l q) as [n|]; injection HE as <- <- <- <-; auto.
  - injection HE as <- <- <- <-. auto.
Qed.

Record hinv (w : world S) : Prop := {
  h_in : forall k j o, nth_error (w_hist w) k = Some (j, o) -> exists t, nth_error (w_ths w) j = Some t /\ writes (t_call t) = Some o
    /\ committed (t_pc t) = true /\ t_from t <= k /\ k < t_till t;
  h_has : forall i t, nth_error (w_ths w) i = Some t -> committed (t_pc t) = true -> exists k o, nth_error (w_hist w) k = Some (i, o);
  h_once : NoDup (map fst (w_hist w))
}.

Lemma hinv0 : hinv world0.
Proof. constructor; cbn; [intros [|k]; discriminate|intros [|i]; discriminate|constructor]. Qed.

Lemma call_hinv : forall w cl, hinv w -> hinv (call w cl).
Proof.
  intros w cl H. constructor; cbn [call w_hist w_ths].
  - intros k j o Q. destruct (h_in _ H k j o Q) as (t & A & B). exists t. split; [|exact B]. rewrite nth_error_app1; [exact A|].
    apply nth_error_Some. congruence.
  - intros i t Q C. destruct (lt_dec i (length (w_ths w))) as [Hl|Hl].
    + rewrite nth_error_app1 in Q by exact Hl. eapply h_has; eauto.
    + rewrite nth_error_app2 in Q by lia. destruct (i - length (w_ths w)) as [|[|]]; try discriminate. injection Q as <-. destruct cl; discriminate.
  - exact (h_once _ H).
Qed.

Lemma step_hinv : forall w c i w', inv w c -> hinv w -> tstep w i = Some w' -> hinv w'.
Proof.
  intros w c i w' HI H HE. destruct (step_inv w c i w' HI HE) as (c' & HI'). unfold tstep in HE.
  destruct (nth_error (w_ths w) i) as [t|] eqn:Ht; [|discriminate].
  destruct (effect (t_call t) i (t_pc t) (w_l w) (w_lock w)) as [[[[l' lock'] pc'] ops]|] eqn:HF; [|discriminate].
  injection HE as <-. set (t' := mkT (t_call t) pc' (t_from t) (length (w_hist w ++ ops)) (Datatypes.S (t_steps t))) in *.
  assert (Hi : nth_error (set_nth (w_ths w) i t') i = Some t') by (eapply set_nth_eq; exact Ht).
  assert (Hj : forall j, j <> i -> nth_error (set_nth (w_ths w) i t') j = nth_error (w_ths w) j) by (intros; apply set_nth_ne; auto).
  pose proof (v_thr _ _ HI i t Ht) as HT. assert (TT : t_till t <= length (w_hist w)) by apply HT. assert (TF : t_from t <= t_till t) by apply HT.
  destruct (effect_hist _ _ _ _ _ _ _ _ _ _ _ HT HF) as [->|[(-> & EC)|(o & -> & C1 & C2 & C3)]].
  - destruct (v_thr _ _ HI' i t' Hi) as (_ & _ & []).
  - rewrite app_nil_r in *. constructor; cbn [w_hist w_ths].
    + intros k j o Q. destruct (h_in _ H k j o Q) as (x & A & B & C & D & E). destruct (Nat.eq_dec j i) as [->|N0].
      * rewrite Ht in A. injection A as <-. exists t'. split; [exact Hi|]. cbn. rewrite app_nil_r. repeat split; [exact B|congruence|exact D|lia].
      * exists x. rewrite Hj by exact N0. auto 10.
    + intros j x Q C. destruct (Nat.eq_dec j i) as [->|N0].
      * rewrite Hi in Q. injection Q as <-. cbn in C. apply (h_has _ H i t Ht). congruence.
      * rewrite Hj in Q by exact N0. eapply h_has; eauto.
    + exact (h_once _ H).
  - assert (NI : ~ In i (map fst (w_hist w))).
    { intro Q. apply in_map_iff in Q as ([j q] & Ej & Q). cbn in Ej. subst j. apply In_nth_error in Q as (k & Q).
      destruct (h_in _ H k i q Q) as (x & A & _ & C & _). rewrite Ht in A. injection A as <-. congruence. }
    constructor; cbn [w_hist w_ths].
    + intros k j p Q. destruct (lt_dec k (length (w_hist w))) as [Hl|Hl].
      * rewrite nth_error_app1 in Q by exact Hl. destruct (h_in _ H k j p Q) as (x & A & B). exists x. split; [|exact B].
        rewrite Hj; [exact A|]. intros ->. apply NI. apply in_map_iff. exists (i, p). split; [reflexivity|]. eapply nth_error_In; exact Q.
      * rewrite nth_error_app2 in Q by lia. destruct (k - length (w_hist w)) as [|[|]] eqn:K; try discriminate. injection Q as <- <-.
        exists t'. split; [exact Hi|]. cbn. rewrite app_length. cbn. repeat split; [exact C3|exact C2|lia|lia].
    + intros j x Q C. destruct (Nat.eq_dec j i) as [->|N0].
      * exists (length (w_hist w)), o. rewrite nth_error_app2, Nat.sub_diag by lia. reflexivity.
      * rewrite Hj in Q by exact N0. destruct (h_has _ H j x Q C) as (k & p & E). exists k, p. rewrite nth_error_app1; [exact E|].
        apply nth_error_Some. congruence.
    + rewrite map_app. apply NoDup_snoc; [exact (h_once _ H)|exact NI].
Qed.

Lemma reach_ind : forall P : world S -> Prop, P world0 -> (forall w cl, P w -> P (call w cl)) ->
  (forall w c i w', inv w c -> P w -> tstep w i = Some w' -> P w') -> forall w, race_reach w -> P w.
Proof.
  intros P P0 PC PS w [ms E].
  assert (G : forall ms w w' c, inv w c -> P w -> rrun w ms = Some w' -> P w').
  { induction ms0 as [|m ms0 IH]; intros v v' c HI HP Q; cbn in Q; [injection Q as <-; exact HP|].
    destruct m as [cl|i]; cbn [rstep] in Q.
    - eapply IH; [apply call_inv; exact HI|apply PC; exact HP|exact Q].
    - destruct (tstep v i) as [v1|] eqn:T; [|discriminate]. destruct (step_inv _ _ _ _ HI T) as (c1 & HI1).
      exact (IH _ _ _ HI1 (PS _ _ _ _ HI HP T) Q). }
  eapply G; [exact inv0|exact P0|exact E].
Qed.

Lemma reach_hinv : forall w, race_reach w -> hinv w.
Proof. apply reach_ind; [exact hinv0|apply call_hinv|exact step_hinv]. Qed.

Lemma NoDup_nth : forall (l : hist_t) k k' j o o', NoDup (map fst l) -> nth_error l k = Some (j, o) -> nth_error l k' = Some (j, o') -> k = k'.
Proof.
  intros l k k' j o o' ND A B. assert (k < length (map fst l)) by (rewrite map_length; apply nth_error_Some; congruence).
  apply (proj1 (NoDup_nth_error (map fst l)) ND k k' H). rewrite (map_nth_error fst k l A), (map_nth_error fst k' l B). reflexivity.
Qed.

Lemma write_once : forall (w : world S) i t o, race_reach w -> runs w i t -> writes (t_call t) = Some o -> returned t ->
  exists k, t_from t <= k /\ k < t_till t /\ nth_error (w_hist w) k = Some (i, o)
    /\ forall k' o', nth_error (w_hist w) k' = Some (i, o') -> k' = k.
Proof.
  intros w i t o HR Ht Hw Hr. pose proof (reach_hinv w HR) as H. destruct (reach_inv w HR) as (c & HI).
  destruct (v_thr _ _ HI i t Ht) as (_ & _ & T).
  assert (HC : committed (t_pc t) = true).
  { unfold returned in Hr. destruct (t_pc t); try destruct Hr; [|reflexivity]. destruct T as (id & E & _). rewrite E in Hw. discriminate. }
  destruct (h_has _ H i t Ht HC) as (k & p & E). destruct (h_in _ H k i p E) as (x & A & B & _ & D & F). rewrite Ht in A. injection A as <-.
  rewrite Hw in B. injection B as <-. exists k. repeat split; auto. intros k' o' Q. eapply NoDup_nth; [exact (h_once _ H)|exact Q|exact E].
Qed.

Lemma hist_made : forall (w : world S) k i o, race_reach w -> nth_error (w_hist w) k = Some (i, o) ->
  exists t, runs w i t /\ writes (t_call t) = Some o /\ t_from t <= k /\ k < t_till t.
Proof.
  intros w k i o HR Q. destruct (h_in _ (reach_hinv w HR) k i o Q) as (t & A & B & _ & C & D). exists t. auto.
Qed.

(** ---- how long it takes ---- *)
Definition cost (l : lookup S) (pc : rpc S) : nat :=
  match pc with
  | GHead => 0 | GAt (Some a) => 1 + 2 * a | GAt None => 2 * l_alloc l + 1 | GNext a => 2 + 2 * a | GDone _ => 2 * l_alloc l + 2
  | ALock => 0 | ANew => 1 | AHead _ => 2 | AFirst _ => 3 | AWalk _ cur => 3 + cur | APrev _ _ => 3 + l_alloc l
  | APub _ _ => 4 + l_alloc l | ATail _ => 5 + l_alloc l
  | RLock => 0 | RHead => 1 | RAt (Some a) => 2 + 2 * a | RAt None => 2 * l_alloc l + 2 | RNext a => 3 + 2 * a | RCut a => 3 + 2 * a
  | RBack _ => 2 * l_alloc l + 4 | WUnlock => 2 * l_alloc l + 6 | WDone => 2 * l_alloc l + 7 | Crash => 0
  end.

Lemma effect_cost : forall l ls c hist cl i pc lock l' lock' pc' ops, sh l ls c hist ->
  effect cl i pc l lock = Some (l', lock', pc', ops) -> pc' = Crash \/ (Datatypes.S (cost l pc) <= cost l' pc' /\ l_alloc l <= l_alloc l').
Proof.
  intros l ls c hist cl i pc lock l' lock' pc' ops HS HE. pose proof (s_mono _ _ _ _ HS) as HM. pose proof (s_dom _ _ _ _ HS) as HD.
  destruct pc as [|[q|]|q| | | |q|q|q q'|q q'|q q'|q| | |[q|]|q|q|q| | |]; cbn [effect] in HE; try discriminate HE.
  - injection HE as <- <- <- <-. right. cbn [cost]. destruct (l_head l); lia.
  - destruct (l_heap l q) as [n|] eqn:Q; injection HE as <- <- <- <-; [|auto]. right. specialize (HD _ _ Q). destruct (N.eqb _ _); cbn [cost]; lia.
  - injection HE as <- <- <- <-. right. cbn [cost]. lia.
  - destruct (l_heap l q) as [n|] eqn:Q; injection HE as <- <- <- <-; [|auto]. right. specialize (HD _ _ Q).
    destruct (n_next n) as [b|] eqn:Qn; cbn [cost]; [specialize (HM _ _ _ Q Qn)|]; lia.
  - destruct lock; [discriminate|]. injection HE as <- <- <- <-. right. cbn. lia.
  - destruct cl; try discriminate. injection HE as <- <- <- <-. right. cbn. lia.
  - injection HE as <- <- <- <-. right. destruct (l_head l); cbn [cost]; lia.
  - destruct cl; try discriminate. injection HE as <- <- <- <-. right. cbn. lia.
  - destruct (l_heap l q') as [n|] eqn:Q; injection HE as <- <- <- <-; [|auto]. right. specialize (HD _ _ Q).
    destruct (n_next n) as [b|] eqn:Qn; cbn [cost]; [specialize (HM _ _ _ Q Qn)|]; lia.
  - injection HE as <- <- <- <-. right. cbn. lia.
  - destruct cl; try discriminate. injection HE as <- <- <- <-. right. cbn. lia.
  - injection HE as <- <- <- <-. right. cbn. lia.
  - destruct lock; [discriminate|]. injection HE as <- <- <- <-. right. cbn. lia.
  - injection HE as <- <- <- <-. right. cbn [cost]. destruct (l_head l); lia.
  - destruct (l_heap l q) as [n|] eqn:Q; injection HE as <- <- <- <-; [|auto]. right. specialize (HD _ _ Q). destruct (N.eqb _ _); cbn [cost]; lia.
  - injection HE as <- <- <- <-. right. cbn [cost]. lia.
  - destruct (l_heap l q) as [n|] eqn:Q; injection HE as <- <- <- <-; [|auto]. right. specialize (HD _ _ Q).
    destruct (n_next n) as [b|] eqn:Qn; cbn [cost]; [specialize (HM _ _ _ Q Qn)|]; lia.
  - destruct (l_heap l q) as [n|] eqn:Q; injection HE as <- <- <- <-; [|auto]. right. specialize (HD _ _ Q). cbn. lia.
  - destruct (l_heap l q) as [n|] eqn:Q; injection HE as <- <- <- <-; [|auto]. right. specialize (HD _ _ Q). cbn. lia.
  - injection HE as <- <- <- <-. right. cbn. lia.
Qed.

Lemma cost_mono : forall l l' pc, l_alloc l <= l_alloc l' -> cost l pc <= cost l' pc.
Proof. intros l l' pc H. destruct pc as [|[q|]|q| | | |q|q|q q'|q q'|q q'|q| | |[q|]|q|q|q| | |]; cbn [cost]; lia. Qed.

Definition is_add (t : rthread S) : bool := match t_call t with CAdd _ _ => true | _ => false end.
Definition made (t : rthread S) : bool :=
  is_add t && match t_pc t with ALock | ANew => false | _ => true end.

Definition b2n (b : bool) : nat := if b then 1 else 0.
Lemma count_set : forall (f : rthread S -> bool) l i x y, nth_error l i = Some y ->
  length (filter f (set_nth l i x)) + b2n (f y) = length (filter f l) + b2n (f x).
Proof.
  induction l as [|z l IH]; intros [|i] x y H; try discriminate; cbn in H.
  - injection H as <-. cbn [set_nth filter]. destruct (f x), (f z); cbn; lia.
  - specialize (IH i x y H). cbn [set_nth filter]. destruct (f z); cbn [length]; lia.
Qed.
Lemma count_le : forall l, length (filter made l) <= length (filter is_add l).
Proof. induction l as [|t l IH]; [auto|]. cbn [filter]. unfold made at 1. destruct (is_add t); cbn; [destruct (t_pc t); cbn; lia|exact IH]. Qed.

Record binv (w : world S) : Prop := {
  b_cost : forall i t, nth_error (w_ths w) i = Some t -> t_steps t <= cost (w_l w) (t_pc t);
  b_alloc : l_alloc (w_l w) = length (filter made (w_ths w))
}.

Lemma effect_made : forall cl i pc (l : lookup S) lock l' lock' pc' ops f k s f' k' s', effect cl i pc l lock = Some (l', lock', pc', ops) ->
  pc' = Crash \/ l_alloc l' + b2n (made (mkT cl pc f k s)) = l_alloc l + b2n (made (mkT cl pc' f' k' s')).
Proof.
  intros cl i pc l lock l' lock' pc' ops f k s f' k' s' HE.
  destruct pc as [|[q|]|q| | | |q|q|q q'|q q'|q q'|q| | |[q|]|q|q|q| | |]; cbn [effect] in HE; try discriminate HE;
    try (destruct (l_heap l q) as [n|]; [|injection HE as <- <- <- <-; left; reflexivity]);
    try (destruct (l_heap l q') as [n|]; [|injection HE as <- <- <- <-; left; reflexivity]);
    try (destruct lock; [discriminate HE|]);
    destruct cl; try discriminate HE; injection HE as <- <- <- <-; right; unfold made, is_add; cbn [t_call t_pc andb b2n with_heap l_alloc];
    try (destruct (N.eqb _ _)); try (destruct (l_head l)); try (destruct (n_next n)); cbn [b2n]; try reflexivity; try lia.
Qed.

Lemma step_binv : forall w c i w', inv w c -> binv w -> tstep w i = Some w' -> binv w'.
Proof.
  intros w c i w' HI H HE. destruct (step_inv w c i w' HI HE) as (c' & HI'). unfold tstep in HE.
  destruct (nth_error (w_ths w) i) as [t|] eqn:Ht; [|discriminate].
  destruct (effect (t_call t) i (t_pc t) (w_l w) (w_lock w)) as [[[[l' lock'] pc'] ops]|] eqn:HF; [|discriminate].
  injection HE as <-. set (t' := mkT (t_call t) pc' (t_from t) (length (w_hist w ++ ops)) (Datatypes.S (t_steps t))) in *.
  assert (Hi : nth_error (set_nth (w_ths w) i t') i = Some t') by (eapply set_nth_eq; exact Ht).
  assert (NC : pc' <> Crash).
  { intros ->. destruct (v_thr _ _ HI' i t' Hi) as (_ & _ & []). }
  constructor; cbn [w_l w_ths].
  - destruct (effect_cost _ _ _ _ _ _ _ _ _ _ _ _ (v_sh _ _ HI) HF) as [|[C1 C2]]; [congruence|].
    intros j x Q. destruct (Nat.eq_dec j i) as [->|N0].
    + rewrite Hi in Q. injection Q as <-. cbn. pose proof (b_cost _ H i t Ht). lia.
    + rewrite set_nth_ne in Q by auto. pose proof (b_cost _ H j x Q). pose proof (cost_mono _ _ (t_pc x) C2). lia.
  - pose proof (count_set made (w_ths w) i t' t Ht) as Q. pose proof (b_alloc _ H) as A.
    destruct (effect_made _ _ _ _ _ _ _ _ _ (t_from t) (t_till t) (t_steps t) (t_from t) (length (w_hist w ++ ops)) (Datatypes.S (t_steps t)) HF)
      as [|E]; [congruence|]. fold t' in E. destruct t as [a1 a2 a3 a4 a5]. cbn [t_call t_pc t_from t_till t_steps] in E. lia.
Qed.

Lemma reach_binv : forall w, race_reach w -> binv w.
Proof.
  apply reach_ind; [|intros w cl H|exact step_binv].
  - constructor; [intros [|i]; discriminate|reflexivity].
  - constructor; cbn [call w_l w_ths].
    + intros i t Q. destruct (lt_dec i (length (w_ths w))) as [Hl|Hl].
      * rewrite nth_error_app1 in Q by exact Hl. eapply b_cost; eauto.
      * rewrite nth_error_app2 in Q by lia. destruct (i - length (w_ths w)) as [|[|]]; try discriminate. injection Q as <-. cbn. lia.
    + rewrite filter_app, app_length. rewrite (b_alloc _ H). destruct cl; cbn; lia.
Qed.

Lemma few_steps : forall (w : world S) i t, race_reach w -> runs w i t -> t_steps t <= 2 * adds w + 7.
Proof.
  intros w i t HR Ht. pose proof (reach_binv w HR) as H. pose proof (b_cost _ H i t Ht) as C. pose proof (b_alloc _ H) as A.
  pose proof (count_le (w_ths w)) as L. unfold adds. change (fun t0 : rthread S => match t_call t0 with CAdd _ _ => true | _ => false end) with is_add.
  destruct (reach_inv w HR) as (c & HI). pose proof (v_sh _ _ HI) as HS. destruct (v_thr _ _ HI i t Ht) as (_ & _ & T).
  assert (AB : match t_pc t with
     | GAt (Some a) | GNext a | AWalk _ a | RAt (Some a) | RNext a | RCut a => a < l_alloc (w_l w) | _ => True end).
  { pose proof (s_dom _ _ _ _ HS) as HD. destruct (t_pc t) as [|[q|]|q| | | |q|q|q q'|q q'|q q'|q| | |[q|]|q|q|q| | |]; try exact I.
    - destruct T as (id & _ & B). destruct (v_thr _ _ HI i t Ht) as (F1 & F2 & _). assert (F3 : t_from t <= length (w_hist w)) by lia.
      destruct (ok_look _ _ _ _ _ _ _ _ HS F3 B) as (n & N1 & _). eapply HD; exact N1.
    - destruct T as (id & _ & _ & n & N1 & _). eapply HD; exact N1.
    - destruct T as [_ X]. rewrite <- (s_alloc _ _ _ _ HS). exact (r_alloc _ _ (s_repr _ _ _ _ HS) _ X).
    - destruct T as (id & _ & c1 & c2 & E & _ & X). rewrite <- (s_alloc _ _ _ _ HS). apply (r_alloc _ _ (s_repr _ _ _ _ HS)).
      destruct c2 as [|[b e] c2]; [discriminate|]. injection X as ->. rewrite E, map_app. apply in_or_app. right. left. reflexivity.
    - destruct T as (id & _ & c1 & e & c2 & E & _). rewrite <- (s_alloc _ _ _ _ HS). apply (r_alloc _ _ (s_repr _ _ _ _ HS)).
      rewrite E, map_app. apply in_or_app. right. left. reflexivity.
    - destruct T as (id & _ & X). destruct (cfind_split _ _ _ X) as (c1 & ii & s & d & c2 & E & _).
      rewrite <- (s_alloc _ _ _ _ HS). apply (r_alloc _ _ (s_repr _ _ _ _ HS)).
      rewrite E, map_app. apply in_or_app. right. left. reflexivity. }
  destruct (t_pc t) as [|[q|]|q| | | |q|q|q q'|q q'|q q'|q| | |[q|]|q|q|q| | |]; cbn [cost] in C; lia.
Qed.
End Proofs.
