(** Proofs: which of the programs that the codec generator writes compile. *)
From Coq Require Import List NArith ZArith Lia Bool.
From Verif Require Import Base OperationsModel MsgpackModel MsgpackSpec GenModel GenSpec.
Import ListNotations.
Open Scope N_scope.

Lemma kind_eqb_eq : forall a b, kind_eqb a b = true <-> a = b.
Proof. intros a b. destruct a, b; cbn; split; intro H; congruence. Qed.
Lemma kind_eqb_refl : forall a, kind_eqb a a = true.
Proof. intro a. apply kind_eqb_eq. reflexivity. Qed.
Lemma gty_eqb_refl : forall g, gty_eqb g g = true.
Proof.
  induction g as [k|n|g IH|g IH|k IHk g IH|]; cbn [gty_eqb]; try assumption; try reflexivity.
  - apply kind_eqb_refl.
  - apply N.eqb_refl.
  - rewrite IHk, IH. reflexivity.
Qed.
Lemma gp_neq : forall g, gty_eqb g (GP g) = false.
Proof. induction g; cbn [gty_eqb]; try reflexivity. apply IHg. Qed.
Lemma gs_neq : forall g, gty_eqb g (GS g) = false.
Proof. induction g; cbn [gty_eqb]; try reflexivity. apply IHg. Qed.

Section Env.
Variable imported : N -> bool.

Definition pl_of (x : var) : option place := match x with VField => Some Field | VItem => Some Item | VValue => Some Value | VKey => None end.
Definition tyof (pl : place) (o : bool) (t : ty) : gty := match pl with Item => item_ty o t | _ => gotyo o t end.
Definition after (x : var) (o : bool) (t : ty) (c : scope gty) : scope gty := if declared x then (x, gotyo o t) :: c else c.

Lemma assigns_is : forall x pl o t c g, pl_of x = Some pl -> (declared x = false -> look x c = Some (tyof pl o t)) ->
  assigns x g c = if declared x then Some ((x, g) :: c) else if gty_eqb (tyof pl o t) g then Some c else None.
Proof.
  intros x pl o t c g P L. unfold assigns. destruct (declared x) eqn:D; [reflexivity|]. rewrite (L eq_refl). reflexivity.
Qed.

Lemma block_app : forall one a b c, block one (a ++ b) c = match block one a c with Some c' => block one b c' | None => None end.
Proof. intros one a. induction a as [|s a IH]; intros b c; cbn [app block]; [reflexivity|]. destruct (one s c); [apply IH|reflexivity]. Qed.

Lemma typed_list : forall x t body c, block typed [SList x t body] c =
  match assigns x (goty t) c with Some c1 => match block typed body c1 with Some _ => Some c1 | None => None end | None => None end.
Proof. intros. cbn [block]. change (typed (SList x t body) c) with (match assigns x (goty t) c with Some c1 => match block typed body c1 with Some _ => Some c1 | None => None end | None => None end).
  destruct (assigns x (goty t) c) as [c1|]; [|reflexivity]. destruct (block typed body c1); reflexivity. Qed.
Lemma typed_map : forall x k o u body c, block typed [SMap x (TyMap k o u) body] c =
  if comparable (goprim k) then match assigns x (GM (goprim k) (gotyo o u)) c with Some c1 => match block typed body c1 with Some _ => Some c1 | None => None end | None => None end else None.
Proof. intros. cbn [block]. change (typed (SMap x (TyMap k o u) body) c) with (if comparable (goprim k) then match assigns x (GM (goprim k) (gotyo o u)) c with Some c1 => match block typed body c1 with Some _ => Some c1 | None => None end | None => None end else None).
  destruct (comparable (goprim k)); [|reflexivity].
  destruct (assigns x _ c) as [c1|]; [|reflexivity]. destruct (block typed body c1); reflexivity. Qed.

Lemma item_go : forall o u, gty_eqb (gotyo o u) (item_ty o u) = negb o || pointered u.
Proof.
  intros o u. unfold gotyo, item_ty. destruct o; cbn [andb negb orb]; [|apply gty_eqb_refl].
  destruct (pointered u); [apply gty_eqb_refl|apply gp_neq].
Qed.

Lemma plain_item : forall o u, plain imported Item o u = true -> negb o || pointered u = true.
Proof.
  intros o u H. destruct o; [|reflexivity]. destruct u; cbn [plain] in H; cbn [pointered negb orb]; try reflexivity; try discriminate H.
  destruct p; cbn in *; congruence.
Qed.

(** An optional alias of bytes as the value of a map is found out one statement later. *)
Definition odd (x : var) (o : bool) (t : ty) : option gty :=
  match x, t with VValue, TyAlias a NBytes => if o && negb (imported a) then Some (GN a) else None | _, _ => None end.
Lemma typed_read : forall t x pl o c, pl_of x = Some pl -> (declared x = false -> look x c = Some (tyof pl o t)) ->
  typeds (msgpackRead imported x t o) c = if plain imported pl o t then Some (after x o t c) else match odd x o t with Some g => Some ((x, g) :: c) | None => None end.
Proof.
  unfold typeds. induction t as [p|n|n|n|a p|o' u IH|k o' u IH]; intros x pl o c P L.
  - cbn [msgpackRead block typed]. unfold after. pose proof (assigns_is x pl o (TyPrim p) c) as A.
    destruct x; [..|discriminate P|]; injection P as <-; cbn [declared] in *; specialize (fun g => A g eq_refl (fun _ => L eq_refl)) || specialize (fun g => A g eq_refl L);
    destruct p, o; cbn [prim_read decodeFuncs decodeNillableFuncs fn_ty kind_eqb plain named negb andb]; try reflexivity; rewrite A; cbn; reflexivity.
  - cbn [msgpackRead plain]. unfold after. destruct x; [..|discriminate P|]; injection P as <-; destruct o; cbn [declared negb andb block typed fn_ty] in *;
    unfold assigns; cbn [declared]; rewrite ?(L eq_refl); cbn; rewrite ?N.eqb_refl; reflexivity.
  - cbn [msgpackRead plain]. unfold after. destruct x; [..|discriminate P|]; injection P as <-; destruct o; cbn [declared negb andb block typed fn_ty] in *;
    unfold assigns; cbn [declared]; rewrite ?(L eq_refl); cbn; rewrite ?N.eqb_refl; reflexivity.
  - cbn [msgpackRead plain]. unfold after. destruct x; [..|discriminate P|]; injection P as <-; destruct o; cbn [declared negb andb block typed fn_ty takes kind_eqb] in *;
    unfold assigns; cbn [declared]; rewrite ?(L eq_refl); cbn; rewrite ?N.eqb_refl; reflexivity.
  - cbn [msgpackRead plain]. unfold after, alias_read, odd.
    destruct x; [..|discriminate P|]; injection P as <-; destruct o, p; cbn [decodeFuncs decodeNillableFuncs castFuncs castNillableFuncs named negb andb orb];
    destruct (imported a); cbn [block typed fn_ty takes kind_eqb orb]; try reflexivity;
    unfold assigns; cbn [declared]; rewrite ?(L eq_refl); cbn; rewrite ?N.eqb_refl; reflexivity.
  - cbn [msgpackRead plain]. replace (odd x o (TyList o' u)) with (@None gty) by (destruct x; reflexivity). rewrite typed_list, (assigns_is x pl o (TyList o' u) c _ P L).
    assert (X : forall c1, look x c1 = Some (GS (gotyo o' u)) ->
      block typed (SVar o' u :: msgpackRead imported VItem u o' ++ [SAppend x]) c1
      = if plain imported Item o' u then (if match x with VItem => false | _ => true end then Some ((VItem, item_ty o' u) :: c1) else None) else None).
    { intros c1 L1. cbn [block typed]. rewrite block_app. rewrite (IH VItem Item o' _ eq_refl) by (intro; reflexivity).
      destruct (plain imported Item o' u) eqn:Q; [|cbn [odd]; reflexivity]. unfold after. cbn [declared block typed look var_eqb].
      destruct x; cbn [var_eqb]; [rewrite L1|..|discriminate P|rewrite L1]; try (rewrite item_go, (plain_item _ _ Q); reflexivity).
      unfold item_ty. destruct o'; [reflexivity|]. destruct (goty u) eqn:G; try reflexivity. rewrite gs_neq. reflexivity. }
    unfold after. destruct x; [..|discriminate P|]; injection P as <-; cbn [declared andb] in *.
    + specialize (L eq_refl). cbn [tyof] in L |- *. unfold gotyo at 1. cbn [pointered]. rewrite andb_false_r.
      rewrite gty_eqb_refl. rewrite X by (rewrite L; unfold gotyo at 1; cbn [pointered goty]; rewrite andb_false_r; reflexivity).
      destruct (plain imported Item o' u); reflexivity.
    + cbn [tyof]. specialize (L eq_refl). cbn [tyof] in L. destruct (gty_eqb (item_ty o (TyList o' u)) (goty (TyList o' u))) eqn:E; [|reflexivity].
      destruct o; [cbn in E; discriminate E|]. rewrite X by (rewrite L; reflexivity). destruct (plain imported Item o' u); reflexivity.
    + rewrite X by reflexivity. destruct (plain imported Item o' u); [|reflexivity]. unfold gotyo. cbn [pointered]. rewrite andb_false_r. reflexivity.
  - cbn [msgpackRead plain]. replace (odd x o (TyMap k o' u)) with (@None gty) by (destruct x; reflexivity). rewrite typed_map, (assigns_is x pl o (TyMap k o' u) c _ P L).
    assert (X : forall c1, negb (named k NAny) = true -> look x c1 = Some (GM (goprim k) (gotyo o' u)) ->
      block typed (SSet VKey (prim_read k false) :: msgpackRead imported VValue u o' ++ [SIndex x]) c1
      = if plain imported Value o' u then (if match x with VValue => false | _ => true end then Some ((VValue, gotyo o' u) :: (VKey, goprim k) :: c1) else None) else None).
    { intros c1 K L1. cbn [block typed].
      replace (fn_ty (prim_read k false)) with (Some (goprim k)) by (destruct k; try reflexivity; discriminate K).
      unfold assigns at 1. cbn [declared]. rewrite block_app.
      rewrite (IH VValue Value o' _ eq_refl) by (intro D; discriminate D). destruct (plain imported Value o' u).
      2: { destruct (odd VValue o' u) as [g|] eqn:D; [|reflexivity]. destruct u as [| | | |a q| |]; cbn in D; try discriminate D. destruct q; try discriminate D.
        destruct o'; [|discriminate D]. destruct (imported a); [discriminate D|]. injection D as <-.
        cbn [block typed look var_eqb]. destruct x; cbn [var_eqb]; [rewrite L1|rewrite L1|discriminate P|reflexivity]; cbn; rewrite andb_false_r; reflexivity. }
      unfold after. cbn [declared block typed look var_eqb].
      destruct x; cbn [var_eqb]; [rewrite L1|rewrite L1|discriminate P|]; rewrite ?gty_eqb_refl; try reflexivity.
      destruct (gotyo o' u) as [| | | |k1 g|] eqn:G; try reflexivity.
      replace (gty_eqb g (GM k1 g)) with false; [rewrite andb_false_r; reflexivity|].
      symmetry. clear. induction g as [| | | |k2 _ g IH|] in k1 |- *; try reflexivity. cbn [gty_eqb]. rewrite IH. apply andb_false_r. }
    replace (comparable (goprim k)) with (negb (named k NAny) && negb (named k NBytes)) by (destruct k; reflexivity).
    destruct (negb (named k NAny)) eqn:K; [|destruct pl; cbn [andb]; rewrite ?andb_false_r; reflexivity].
    destruct (negb (named k NBytes)) eqn:K2; [|destruct pl; cbn [andb]; rewrite ?andb_false_r; reflexivity]. rewrite !andb_true_r. cbn [andb].
    unfold after. destruct x; [..|discriminate P|]; injection P as <-; cbn [declared andb] in *.
    + specialize (L eq_refl). cbn [tyof] in L |- *. unfold gotyo at 1. cbn [pointered goty]. rewrite andb_false_r. fold (gotyo o' u).
      rewrite gty_eqb_refl. rewrite (X c eq_refl) by (rewrite L; unfold gotyo at 1; cbn [pointered goty]; rewrite andb_false_r; reflexivity).
      destruct (plain imported Value o' u); reflexivity.
    + specialize (L eq_refl). cbn [tyof] in L |- *. destruct o; [reflexivity|]. cbn [negb andb]. unfold item_ty at 1. cbn [goty]. fold (gotyo o' u). rewrite gty_eqb_refl.
      rewrite (X c eq_refl) by (rewrite L; reflexivity). destruct (plain imported Value o' u); reflexivity.
    + rewrite (X _ eq_refl) by reflexivity. destruct (plain imported Value o' u); reflexivity.
Qed.

Lemma compiles : forall o t, (exists c, typeds (msgpackRead imported VField t o) [(VField, gotyo o t)] = Some c) <-> plain imported Field o t = true.
Proof.
  intros o t. rewrite (typed_read t VField Field o _ eq_refl) by (intro; reflexivity). destruct (plain imported Field o t); split.
  - reflexivity.
  - intros _. eexists. reflexivity.
  - intros [c X]. discriminate X.
  - discriminate.
Qed.
End Env.
