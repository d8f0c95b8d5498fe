(** Proofs about fluxes. *)
From Coq Require Import List Arith ZArith Bool Permutation Lia.
From Verif Require Import MonoModel MonoProofs FluxModel FluxSpec.
Import ListNotations.

Section Proofs.
Context {T E : Type} (g : fcfg).
Implicit Types (st : flst) (stack its : list (fitem T E)) (tr evs : list (fevent T E)) (l : list (fcall T E)) (c : fcall T E) (it : fitem T E).

Lemma fcalls_app : forall a b : list (fevent T E), fcalls (a ++ b) = fcalls a ++ fcalls b.
Proof. intros. apply flat_map_app. Qed.
Lemma closer_app : forall a b : list (fcall T E), closer (a ++ b) = match closer a with Some x => Some x | None => closer b end.
Proof. intros. apply find_app. Qed.
Lemma upto_app : forall a b : list (fcall T E), upto (a ++ b) = match closer a with Some _ => upto a | None => a ++ upto b end.
Proof.
  induction a as [|c a IH]; intro b; [reflexivity|]. cbn [app upto]. unfold closer. cbn [find]. destruct (closes c); [reflexivity|].
  rewrite IH. unfold closer. destruct (find closes a); reflexivity.
Qed.
Lemma upto_none : forall a : list (fcall T E), closer a = None -> upto a = a.
Proof.
  intros a H. rewrite <- (app_nil_r a) at 1. rewrite upto_app, H. apply app_nil_r.
Qed.
Lemma expected_app : forall l c, expected g (l ++ [c]) = match closer l with Some _ => expected g l | None => expected g l ++ delivers g c end.
Proof.
  intros. unfold expected. rewrite upto_app. destruct (closer l) eqn:C; [reflexivity|]. rewrite flat_map_app, (upto_none l) by assumption.
  f_equal. cbn [upto]. destruct (closes c); cbn [flat_map]; apply app_nil_r.
Qed.
Lemma delivered_app : forall a b : list (fevent T E), delivered (a ++ b) = delivered a ++ delivered b.
Proof. intros. apply filter_app. Qed.
Lemma finals_app : forall a b : list (fevent T E), finals (a ++ b) = finals a ++ finals b.
Proof. intros. apply flat_map_app. Qed.
Lemma fregistered_app : forall a b : list (fcall T E), fregistered (a ++ b) = fregistered a + fregistered b.
Proof. intros. unfold fregistered. rewrite filter_app, app_length. reflexivity. Qed.
Lemma fnotified_app : forall a b : list (fevent T E), fnotified (a ++ b) = fnotified a ++ fnotified b.
Proof. intros. apply flat_map_app. Qed.

(** ** Deliveries and Finally *)
Definition pd1 it : list (fevent T E) :=
  match it with FCommit c => delivers g c | FEmit true e => if is_delivery e then [e] else [] | _ => [] end.
Definition pd stack := flat_map pd1 stack.
Definition fin_of c : list signal :=
  if k_finally g then match c with FComplete => [SigComplete] | FError _ => [SigError] | _ => [] end else [].
Definition pf1 it : list signal :=
  match it with
  | FCommit c => fin_of c
  | FEmit true (VFinally s) => [s]
  | FFin s => if k_finally g then [s] else []
  | _ => []
  end.
Definition pf stack := flat_map pf1 stack.
Lemma pd_app : forall a b, pd (a ++ b) = pd a ++ pd b.
Proof. intros. apply flat_map_app. Qed.
Lemma pf_app : forall a b, pf (a ++ b) = pf a ++ pf b.
Proof. intros. apply flat_map_app. Qed.
Definition is_fcommit it : bool := match it with FCommit _ => true | _ => false end.
(** Items that may sit below the top of the stack. *)
Definition quiet it : bool := match it with FCommit _ => false | FEmit _ e => negb (is_delivery e) | _ => true end.
Definition emit_ok it : bool := match it with FEmit _ (VCall _) => false | _ => true end.
Lemma quiet_pd : forall a, forallb quiet a = true -> pd a = [].
Proof.
  induction a as [|it a IH]; intro H; [reflexivity|]. cbn [forallb] in H. apply andb_true_iff in H as [H1 H2].
  unfold pd in *. cbn [flat_map]. rewrite (IH H2), app_nil_r.
  destruct it as [| | | |[] e| | | | | | |]; cbn in *; try reflexivity; try discriminate. destruct (is_delivery e); [discriminate|reflexivity].
Qed.

Lemma finals_exp_app : forall l c, expected_finals g (l ++ [c]) =
  if k_finally g then (match closer (l ++ [c]) with Some FComplete => [SigComplete] | Some (FError _) => [SigError] | _ => [] end) ++
     flat_map (fun c => match c with FCancel => [SigCancel] | _ => [] end) l ++ match c with FCancel => [SigCancel] | _ => [] end else [].
Proof. intros. unfold expected_finals. destruct (k_finally g); [|reflexivity]. rewrite flat_map_app. cbn [flat_map]. rewrite app_nil_r. reflexivity. Qed.

Record finv st stack tr : Prop := {
  v_del : delivered tr ++ pd stack = expected g (fcalls tr);
  v_quiet : forallb quiet (tl stack) = true;
  v_closed : match stack with
             | FCommit c :: _ => f_closed st = false /\ f_sub st = true /\ closer (fcalls tr) = if closes c then Some c else None
             | _ => f_closed st = match closer (fcalls tr) with Some _ => true | None => false end
             end;
  v_sub : f_closed st = true -> f_sub st = true;
  v_fin : Permutation (finals tr ++ pf stack) (expected_finals g (fcalls tr));
  v_emit : forallb emit_ok stack = true }.

(** Steps that make no call. *)
Lemma finv_silent : forall st st' it stack its tr evs,
  finv st (it :: stack) tr -> is_fcommit it = false -> forallb (fun x => negb (is_fcommit x)) its = true ->
  forallb quiet (tl its) = true -> f_closed st' = f_closed st -> f_sub st' = f_sub st -> fcalls evs = [] ->
  delivered evs ++ pd its = pd [it] -> Permutation (finals evs ++ pf its) (pf [it]) -> forallb emit_ok its = true ->
  finv st' (its ++ stack) (tr ++ evs).
Proof.
  intros st st' it stack its tr evs [D Q C S F M] Ci Cs Qs Ec Es Ev Pd Pf Mi. cbn [tl] in Q.
  assert (Cl : f_closed st = match closer (fcalls tr) with Some _ => true | None => false end) by (destruct it; try exact C; discriminate Ci).
  constructor; rewrite ?fcalls_app, ?Ev, ?app_nil_r, ?Ec, ?Es.
  - rewrite <- D, delivered_app, pd_app, <- app_assoc. f_equal. rewrite app_assoc, Pd. symmetry. apply (pd_app [it] stack).
  - destruct its as [|a b]; [destruct stack as [|s q]; [reflexivity|]; cbn in Q |- *; apply andb_true_iff in Q; apply Q|].
    cbn [app tl]. rewrite forallb_app. cbn [tl] in Qs. rewrite Qs. exact Q.
  - assert (Q' : match stack with FCommit _ :: _ => False | _ => True end) by (destruct stack as [|[]]; try exact I; discriminate Q).
    destruct its as [|a b]; cbn [app].
    + destruct stack as [|[]]; try exact Cl. contradiction.
    + destruct a; try exact Cl. discriminate Cs.
  - exact S.
  - etransitivity; [|exact F]. rewrite finals_app, pf_app, <- app_assoc. apply Permutation_app_head. rewrite app_assoc.
    change (pf (it :: stack)) with (pf ([it] ++ stack)). rewrite pf_app. apply Permutation_app_tail. exact Pf.
  - rewrite forallb_app, Mi. cbn [forallb] in M. apply andb_true_iff in M. apply M.
Qed.

Lemma closed_head : forall st it stack tr, finv st (it :: stack) tr -> is_fcommit it = false ->
  f_closed st = match closer (fcalls tr) with Some _ => true | None => false end.
Proof. intros st it stack tr [D Q C S F M] Ci. destruct it; try exact C; discriminate Ci. Qed.

(** Calls that close nothing and deliver nothing. *)
Lemma finv_call : forall st st' c stack its tr, finv st (FDo c :: stack) tr -> closes c = false -> delivers g c = [] ->
  forallb quiet its = true -> pf its = [] -> f_closed st' = f_closed st -> (f_sub st = true -> f_sub st' = true) ->
  forallb emit_ok its = true -> finv st' (its ++ stack) (tr ++ [VCall c]).
Proof.
  intros st st' c stack its tr I Nc Nd Qi Pf Ec Es Mi. assert (Cl := closed_head _ _ _ _ I eq_refl). destruct I as [D Q C S F M]. cbn [tl] in Q.
  assert (Ecl : closer (fcalls tr ++ [c]) = closer (fcalls tr)).
  { rewrite closer_app. destruct (closer (fcalls tr)); [reflexivity|]. unfold closer. cbn [find]. rewrite Nc. reflexivity. }
  assert (Qa : forallb quiet (its ++ stack) = true) by (rewrite forallb_app, Qi; exact Q).
  constructor; rewrite ?fcalls_app; change (fcalls [VCall c]) with [c]; rewrite ?Ec.
  - rewrite expected_app, Nd, app_nil_r, delivered_app, app_nil_r, pd_app, (quiet_pd its Qi). cbn [app].
    change (delivered tr ++ pd stack = expected g (fcalls tr)) in D. rewrite D. destruct (closer (fcalls tr)); reflexivity.
  - destruct (its ++ stack); [reflexivity|]. cbn [forallb tl] in *. apply andb_true_iff in Qa. apply Qa.
  - rewrite Ecl, <- Cl. destruct (its ++ stack) as [|[]]; try reflexivity. discriminate Qa.
  - intro X. apply Es, S, X.
  - rewrite finals_exp_app, Ecl, finals_app, app_nil_r, pf_app, Pf. cbn [app]. change (pf (FDo c :: stack)) with (pf stack) in F.
    etransitivity; [exact F|]. unfold expected_finals. destruct (k_finally g); [|constructor].
    assert (X : match c with FCancel => [SigCancel] | _ => [] end = []) by (destruct c; try reflexivity; discriminate Nc).
    rewrite X, app_nil_r. apply Permutation_refl.
  - rewrite forallb_app, Mi. exact M.
Qed.

(** Next, Complete, Error and OnSubscribe calls. *)
Lemma finv_guarded : forall st c stack its tr, finv st (FDo c :: stack) tr -> f_sub st = true ->
  (match c with FNext _ | FComplete | FError _ | FOnSubscribe _ _ => True | _ => False end) ->
  its = (if f_closed st then [] else [FCommit c]) -> finv st (its ++ stack) (tr ++ [VCall c]).
Proof.
  intros st c stack its tr I Sub G ->. assert (Cl := closed_head _ _ _ _ I eq_refl). destruct I as [D Q C S F M]. cbn [tl] in Q.
  change (delivered tr ++ pd stack = expected g (fcalls tr)) in D. change (pf (FDo c :: stack)) with (pf stack) in F.
  assert (Nc : match c with FCancel => [SigCancel] | _ => [] end = []) by (destruct c; try reflexivity; contradiction).
  assert (Del : delivered [@VCall T E c] = [] /\ finals [@VCall T E c] = []) by (split; reflexivity).
  destruct Del as [Del Fi]. destruct (closer (fcalls tr)) as [x|] eqn:X; rewrite Cl; cbn [app].
  - constructor; rewrite ?fcalls_app; change (fcalls [VCall c]) with [c]; rewrite ?Cl.
    + rewrite expected_app, X, delivered_app, Del, app_nil_r. exact D.
    + destruct stack; [reflexivity|]. cbn [forallb tl] in *. apply andb_true_iff in Q. apply Q.
    + rewrite closer_app, X. destruct stack as [|[]]; try reflexivity. discriminate Q.
    + auto.
    + rewrite finals_exp_app, closer_app, X, finals_app, Fi, app_nil_r, Nc, app_nil_r. etransitivity; [exact F|]. unfold expected_finals.
      rewrite X. apply Permutation_refl.
    + exact M.
  - constructor; rewrite ?fcalls_app; change (fcalls [VCall c]) with [c]; rewrite ?Cl.
    + rewrite expected_app, X, delivered_app, Del, app_nil_r. change (pd (FCommit c :: stack)) with (delivers g c ++ pd stack).
      rewrite (quiet_pd stack Q) in *. rewrite !app_nil_r in *. rewrite D. reflexivity.
    + exact Q.
    + split; [reflexivity|]. split; [exact Sub|]. rewrite closer_app, X. unfold closer. cbn [find]. destruct (closes c); reflexivity.
    + discriminate.
    + rewrite finals_exp_app, closer_app, X, finals_app, Fi, app_nil_r, Nc, app_nil_r.
      change (pf (FCommit c :: stack)) with (fin_of c ++ pf stack). etransitivity; [apply Permutation_app_swap_app|].
      etransitivity; [apply Permutation_app_head; exact F|]. unfold expected_finals, fin_of. rewrite X. unfold closer. cbn [find].
      destruct (k_finally g); [|constructor]. apply Permutation_refl' .
      destruct c; try contradiction; reflexivity.
    + exact M.
Qed.

(** Cancel and Close. *)
Lemma finv_close : forall st c stack its tr, finv st (FDo c :: stack) tr -> f_sub st = true -> c = FCancel \/ c = FClose ->
  forallb quiet its = true -> pf its = (if k_finally g then match c with FCancel => [SigCancel] | _ => [] end else []) ->
  forallb emit_ok its = true -> finv (set_closed st) (its ++ stack) (tr ++ [VCall c]).
Proof.
  intros st c stack its tr I Sub G Qi Pf Mi. assert (Cl := closed_head _ _ _ _ I eq_refl). destruct I as [D Q C S F M]. cbn [tl] in Q.
  change (delivered tr ++ pd stack = expected g (fcalls tr)) in D. change (pf (FDo c :: stack)) with (pf stack) in F.
  assert (Qa : forallb quiet (its ++ stack) = true) by (rewrite forallb_app, Qi; exact Q).
  assert (Nd : delivers g c = [] /\ closes c = true) by (destruct G as [-> | ->]; split; reflexivity). destruct Nd as [Nd Nc].
  constructor; rewrite ?fcalls_app; change (fcalls [VCall c]) with [c].
  - rewrite expected_app, Nd, app_nil_r, delivered_app, app_nil_r, pd_app, (quiet_pd its Qi). cbn [app]. rewrite D. destruct (closer (fcalls tr)); reflexivity.
  - destruct (its ++ stack); [reflexivity|]. cbn [forallb tl] in *. apply andb_true_iff in Qa. apply Qa.
  - assert (X : f_closed (set_closed st) = match closer (fcalls tr ++ [c]) with Some _ => true | None => false end).
    { rewrite closer_app. unfold closer at 2. cbn [find]. rewrite Nc. destruct (closer (fcalls tr)); reflexivity. }
    destruct (its ++ stack) as [|[]]; try exact X. discriminate Qa.
  - intros _. exact Sub.
  - rewrite finals_exp_app, finals_app, app_nil_r, pf_app, Pf.
    etransitivity; [apply Permutation_app_swap_app|]. etransitivity; [apply Permutation_app_head; exact F|].
    unfold expected_finals. destruct (k_finally g); [|constructor]. etransitivity; [apply Permutation_app_comm|]. rewrite <- app_assoc.
    apply Permutation_app; [|apply Permutation_refl]. rewrite closer_app. destruct (closer (fcalls tr)); [apply Permutation_refl|].
    destruct G as [-> | ->]; constructor.
  - rewrite forallb_app, Mi. exact M.
Qed.

Lemma finv_commit : forall st c stack its tr st' evs new, finv st (FCommit c :: stack) tr -> fstep true g st (FCommit c) = Some (st', its, new, evs) ->
  finv st' (its ++ stack) (tr ++ evs) /\ new = [].
Proof.
  intros st c stack its tr st' evs new [D Q (C1 & C2 & C3) S F M] H. cbn [tl] in Q.
  change (pd (FCommit c :: stack)) with (delivers g c ++ pd stack) in D. change (pf (FCommit c :: stack)) with (fin_of c ++ pf stack) in F.
  assert (Hs : forall b, forallb quiet stack = b -> match stack with FCommit _ :: _ => b = false | _ => True end).
  { intros b <-. destruct stack as [|[]]; try exact I. reflexivity. }
  specialize (Hs _ Q).
  destruct c as [| |v| |e|r k|n| |]; cbn [fstep] in H; try discriminate; injection H as <- <- <- <-; (split; [|reflexivity]); rewrite app_nil_r.
  - constructor.
    + rewrite <- D. cbn [app]. unfold pd. cbn [flat_map pd1 delivers]. destruct (k_next g); reflexivity.
    + exact Q.
    + cbn [app set_n f_closed]. rewrite C3. exact C1.
    + exact S.
    + cbn [app]. etransitivity; [|exact F]. apply Permutation_app_head. unfold pf, fin_of. cbn [flat_map pf1]. destruct (k_next g), (k_finally g); apply Permutation_refl.
    + exact M.
  - constructor.
    + rewrite <- D. cbn [app]. unfold pd. cbn [flat_map pd1 delivers]. destruct (k_complete g); reflexivity.
    + exact Q.
    + cbn [app]. rewrite C3. reflexivity.
    + intros _. exact C2.
    + cbn [app]. etransitivity; [|exact F]. apply Permutation_app_head. unfold pf, fin_of. cbn [flat_map pf1]. destruct (k_complete g), (k_finally g); apply Permutation_refl.
    + exact M.
  - constructor.
    + rewrite <- D. cbn [app]. unfold pd. cbn [flat_map pd1 delivers]. destruct (k_error g); reflexivity.
    + exact Q.
    + cbn [app]. rewrite C3. reflexivity.
    + intros _. exact C2.
    + cbn [app]. etransitivity; [|exact F]. apply Permutation_app_head. unfold pf, fin_of. cbn [flat_map pf1]. destruct (k_error g), (k_finally g); apply Permutation_refl.
    + exact M.
  - constructor.
    + rewrite <- D. destruct (0 <? f_n st)%Z; reflexivity.
    + destruct (0 <? f_n st)%Z; cbn [app tl]; [exact Q|]. destruct stack; [reflexivity|]. cbn [forallb tl] in *. apply andb_true_iff in Q. apply Q.
    + cbn [f_closed]. rewrite C1, C3. destruct (0 <? f_n st)%Z; cbn [app closes]; [reflexivity|]. destruct stack as [|[]]; try reflexivity. discriminate Hs.
    + exact S.
    + etransitivity; [|exact F]. apply Permutation_app_head. unfold fin_of. destruct (0 <? f_n st)%Z, (k_finally g); apply Permutation_refl.
    + rewrite forallb_app. destruct (0 <? f_n st)%Z; exact M.
Qed.

Lemma finv_step : forall st it stack tr st' its new evs, finv st (it :: stack) tr -> fstep true g st it = Some (st', its, new, evs) ->
  finv st' (its ++ stack) (tr ++ evs) /\ new = [].
Proof.
  intros st it stack tr st' its new evs I H.
  destruct it as [|n|c|c|b e| | |n|n|n|s|s]; cbn [fstep] in H; try discriminate.
  - destruct (f_sub st) eqn:Sub.
    2: { destruct c; try discriminate; cbn in H; injection H as <- <- <- <-; (split; [|reflexivity]); apply (finv_call st); auto; try reflexivity. }
    destruct c as [| |v| |e|r k|n| |]; cbn in H; try discriminate.
    + destruct (f_closed st) eqn:Cl; injection H as <- <- <- <-; (split; [|reflexivity]); apply (finv_call st); auto; try reflexivity.
    + split; [|destruct (f_closed st); injection H as <- <- <- <-; reflexivity].
      assert (X : its = (if f_closed st then [] else [FCommit (FNext v)]) /\ st' = st /\ evs = [VCall (FNext v)]) by (destruct (f_closed st); injection H as <- <- <- <-; auto).
      destruct X as (X & -> & ->). apply finv_guarded; auto.
    + split; [|destruct (f_closed st); injection H as <- <- <- <-; reflexivity].
      assert (X : its = (if f_closed st then [] else [FCommit FComplete]) /\ st' = st /\ evs = [VCall FComplete]) by (destruct (f_closed st); injection H as <- <- <- <-; auto).
      destruct X as (X & -> & ->). apply finv_guarded; auto.
    + split; [|destruct (f_closed st); injection H as <- <- <- <-; reflexivity].
      assert (X : its = (if f_closed st then [] else [FCommit (FError e)]) /\ st' = st /\ evs = [VCall (FError e)]) by (destruct (f_closed st); injection H as <- <- <- <-; auto).
      destruct X as (X & -> & ->). apply finv_guarded; auto.
    + split; [|destruct (f_closed st); injection H as <- <- <- <-; reflexivity].
      assert (X : its = (if f_closed st then [] else [FCommit (FOnSubscribe r k)]) /\ st' = st /\ evs = [VCall (FOnSubscribe r k)]) by (destruct (f_closed st); injection H as <- <- <- <-; auto).
      destruct X as (X & -> & ->). apply finv_guarded; auto.
    + injection H as <- <- <- <-. split; [|reflexivity]. apply (finv_call st); auto; reflexivity.
    + injection H as <- <- <- <-. split; [|reflexivity]. apply finv_close; auto.
      unfold pf. cbn [flat_map pf1]. destruct (f_can st), (k_finally g); reflexivity.
    + injection H as <- <- <- <-. split; [|reflexivity]. apply finv_close; auto. destruct (k_finally g); reflexivity.
  - apply (finv_commit st c stack its tr st' evs new I H).
  - assert (M : emit_ok (FEmit b e) = true) by (destruct I as [_ _ _ _ _ M]; cbn [forallb] in M; apply andb_true_iff in M; apply M).
    destruct b; [|injection H as <- <- <- <-; split; [|reflexivity]; apply (finv_silent st st (FEmit false e)); auto].
    assert (X : st' = st /\ (its = [FUser] \/ exists n, its = [FSrc n]) /\ new = [] /\ evs = [e]).
    { destruct e; injection H as <- <- <- <-; repeat split; auto. right. exists n. reflexivity. }
    destruct X as (-> & X & -> & ->). split; [|reflexivity].
    apply (finv_silent st st (FEmit true e)); auto; destruct X as [-> | [n ->]]; auto; destruct e; try reflexivity; try discriminate M;
      apply Permutation_refl.
  - injection H as <- <- <- <-. split; [|reflexivity]. apply (finv_silent st st FAfter); auto; destruct (f_n st =? 0)%Z; auto.
  - injection H as <- <- <- <-. split; [|reflexivity]. apply (finv_silent st st FHandle); auto; destruct (k_norequest g), (k_request g); auto.
  - injection H as <- <- <- <-. split; [|reflexivity]. apply (finv_silent st _ (FReq n)); auto; destruct (f_req st); auto.
  - injection H as <- <- <- <-. split; [|reflexivity]. apply (finv_silent st _ (FDoReq n)); auto.
  - destruct (f_req st); [|discriminate]. injection H as <- <- <- <-. split; [|reflexivity]. apply (finv_silent st _ (FRunSrc n)); auto.
  - injection H as <- <- <- <-. split; [|reflexivity]. apply (finv_silent st _ (FFin s)); auto; unfold pf, pd, pf1; cbn; destruct (k_finally g); auto.
  - injection H as <- <- <- <-. split; [|reflexivity].
    assert (X : forall p, (forall k, p (FEmit true (VNotify k s)) = true) -> forallb p (map (fun k => FEmit true (VNotify k s)) (f_cbs st) : list (fitem T E)) = true).
    { intros p Hp. apply forallb_forall. intros x Hx. apply in_map_iff in Hx as (k & <- & _). apply Hp. }
    assert (Q : forallb quiet (map (fun k => FEmit true (VNotify k s)) (f_cbs st) : list (fitem T E)) = true) by (apply X; reflexivity).
    apply (finv_silent st st (FRunCbs s)); auto.
    + destruct (f_cbs st); [reflexivity|]. cbn [map tl forallb] in *. exact Q.
    + rewrite (quiet_pd _ Q). reflexivity.
    + assert (Y : pf (map (fun k => FEmit true (VNotify k s)) (f_cbs st)) = []).
      { clear. induction (f_cbs st) as [|k q IH]; [reflexivity|]. exact IH. }
      rewrite Y. apply Permutation_refl.
Qed.

Definition fbottom stack : Prop := exists s, stack = s ++ [FUser].
Lemma freach_inv_aux : forall st ths tr, freach true g st ths tr -> forall stack, ths = [stack] -> finv st stack tr /\ fbottom stack.
Proof.
  intros st ths tr H. induction H as [n|st l u stack r tr c H IH U|st l u stack r tr H IH U N|st l it stack r tr st' its new evs H IH S]; intros stk Es.
  - destruct n as [|[|n]]; try discriminate. injection Es as <-. split; [|exists []; reflexivity]. constructor; try reflexivity; try discriminate.
    cbn. unfold expected_finals. destruct (k_finally g); constructor.
  - apply one_thread in Es as (-> & -> & <-). destruct (IH _ eq_refl) as [[D Q C S F M] [b B]]. split.
    2: { exists (FDo c :: b). rewrite B. reflexivity. }
    cbn [tl] in Q. constructor; auto.
    + cbn [tl forallb]. rewrite Q. destruct u; try discriminate U; reflexivity.
    + destruct u; try discriminate U; exact C.
  - apply one_thread in Es as (-> & -> & <-). destruct (IH _ eq_refl) as [[D Q C S F M] [b B]]. cbn [tl] in Q. split.
    2: { destruct b as [|x b]; [injection B as -> ->; contradiction|]. injection B as <- ->. exists b. reflexivity. }
    constructor; auto.
    + rewrite <- D. f_equal. destruct u; try discriminate U; reflexivity.
    + destruct stack; [reflexivity|]. cbn [forallb tl] in *. apply andb_true_iff in Q. apply Q.
    + assert (Cl : f_closed st = match closer (fcalls tr) with Some _ => true | None => false end) by (destruct u; try discriminate U; exact C).
      destruct stack as [|[]]; try exact Cl. discriminate Q.
    + etransitivity; [|exact F]. destruct u; try discriminate U; apply Permutation_refl.
    + cbn [forallb] in M. apply andb_true_iff in M. apply M.
  - assert (X : exists q, new = q /\ l ++ (its ++ stack) :: r ++ new = [stk]) by (exists new; auto). destruct X as (q & _ & X).
    apply one_thread in X as (-> & X & <-). apply app_eq_nil in X as [-> ->]. destruct (IH _ eq_refl) as [I [b B]].
    split; [apply (finv_step st it stack tr st' its [] evs I S)|].
    destruct b as [|x b]; [injection B as -> ->; discriminate S|]. injection B as -> ->. exists (its ++ b). apply app_assoc.
Qed.
Lemma freach_inv : forall st stack tr, freach true g st [stack] tr -> finv st stack tr.
Proof. intros. apply (freach_inv_aux st [stack] tr); auto. Qed.

Theorem deliveries_proof : forall st stack tr, freach true g st [stack] tr ->
  (exists d, expected g (fcalls tr) = delivered tr ++ d) /\
  (match stack with u :: _ => is_user u = true | [] => False end -> delivered tr = expected g (fcalls tr)).
Proof.
  intros st stack tr R. destruct (freach_inv _ _ _ R) as [D Q C S F M]. split; [exists (pd stack); symmetry; exact D|].
  destruct stack as [|u stack]; [contradiction|]. intro U. cbn [tl] in Q. rewrite <- D.
  change (pd (u :: stack)) with (pd1 u ++ pd stack). rewrite (quiet_pd stack Q). destruct u; try discriminate U; cbn; rewrite ?app_nil_r; reflexivity.
Qed.
Theorem finals_proof : forall st tr, freach true g st [[FUser]] tr -> Permutation (finals tr) (expected_finals g (fcalls tr)).
Proof. intros st tr R. destruct (freach_inv _ _ _ R) as [D Q C S F M]. cbn in F. rewrite app_nil_r in F. exact F. Qed.

Lemma expected_wf : forall l, well_formed (expected g l) = true.
Proof.
  unfold expected. induction l as [|c l IH]; [reflexivity|]. cbn [upto]. destruct (closes c) eqn:Cc.
  - destruct c; try discriminate Cc; cbn; try reflexivity; [destruct (k_complete g)|destruct (k_error g)]; reflexivity.
  - cbn [flat_map]. destruct c; try discriminate Cc; cbn [delivers app]; try exact IH. destruct (k_next g); cbn [app]; [|exact IH].
    cbn [well_formed]. destruct (flat_map (delivers g) (upto l)); [reflexivity|exact IH].
Qed.

(** ** Notify *)
Definition fpend1 it : list nat := match it with FEmit true (VNotify k _) => [k] | _ => [] end.
Definition fpend stack := flat_map fpend1 stack.
Definition term c : bool := match c with FComplete | FError _ => true | _ => false end.
Definition is_frun it : bool := match it with FCommit c => term c | FFin _ | FRunCbs _ => true | _ => false end.
Definition is_ffin it : bool := match it with FCommit c => term c | FFin _ => true | _ => false end.
Definition fruns stack : nat := length (filter is_frun stack).
Definition ffins stack : nat := length (filter is_ffin stack).
Lemma fpend_app : forall a b, fpend (a ++ b) = fpend a ++ fpend b.
Proof. intros. apply flat_map_app. Qed.
Lemma fruns_app : forall a b, fruns (a ++ b) = fruns a + fruns b.
Proof. intros. unfold fruns. rewrite filter_app, app_length. reflexivity. Qed.
Lemma ffins_app : forall a b, ffins (a ++ b) = ffins a + ffins b.
Proof. intros. unfold ffins. rewrite filter_app, app_length. reflexivity. Qed.

Definition fit_ok (s : signal) (nb : nat) it : Prop :=
  match it with
  | FEmit true (VNotify k x) => x = s \/ (x = SigComplete /\ nb <= k)
  | FFin x | FRunCbs x => x = s
  | _ => True
  end.
Definition fev_ok (s : signal) (nb : nat) (e : fevent T E) : Prop :=
  match e with VNotify k x => x = s \/ (x = SigComplete /\ nb <= k) | _ => True end.

(** What should have been run, or wait to be run. *)
Definition due c (early reg : nat) : list nat := if term c then seq 0 reg else seq early (reg - early).

Definition fninv st stack tr : Prop :=
  let l := fcalls tr in
  f_notified st = fregistered l /\
  match closer l with
  | None => fruns stack = 0 /\ fpend stack = [] /\ fnotified tr = [] /\ f_cbs st = seq 0 (fregistered l) /\ f_signal st = SigComplete
  | Some c => (f_cbs st = seq 0 (fearly l) /\ fearly l <= fregistered l) /\
       (Forall (fit_ok (fsignal l) (fearly l)) stack /\ Forall (fev_ok (fsignal l) (fearly l)) tr) /\
       ((f_signal st = SigComplete \/ f_signal st = fsignal l) /\ (ffins stack = 0 -> f_signal st = fsignal l)) /\
       (if term c then fruns stack <= 1 else fruns stack = 0) /\
       Permutation (fnotified tr ++ fpend stack ++ (if fruns stack =? 0 then [] else f_cbs st)) (due c (fearly l) (fregistered l))
  end.

Lemma fquiet_items : forall s nb stack, fruns stack = 0 -> fpend stack = [] -> Forall (fit_ok s nb) stack.
Proof.
  intros s nb. induction stack as [|it stack IH]; intros R P; [constructor|].
  unfold fruns in R. cbn [filter] in R. cbn [fpend flat_map] in P. apply app_eq_nil in P as [P1 P2].
  constructor; [|apply IH; [|exact P2]; destruct (is_frun it); [discriminate R|exact R]].
  destruct it as [| | | |[] []| | | | | | |]; cbn in *; try exact I; discriminate.
Qed.
Lemma fquiet_events : forall s nb tr, fnotified tr = [] -> Forall (fev_ok s nb) tr.
Proof.
  intros s nb. induction tr as [|e tr IH]; intro P; [constructor|]. cbn [fnotified flat_map] in P. apply app_eq_nil in P as [P1 P2].
  constructor; [|apply IH; exact P2]. destruct e; cbn in *; try exact I. discriminate.
Qed.

(** Steps that make no call and leave the bookkeeping alone. *)
Lemma fninv_same : forall st st' it stack its evs tr,
  f_cbs st' = f_cbs st -> f_notified st' = f_notified st -> f_signal st' = f_signal st ->
  fruns its = fruns [it] -> ffins its = ffins [it] -> fpend its = fpend [it] ->
  (forall s nb, (fruns [it] > 0 -> s = fsignal (fcalls tr)) -> fit_ok s nb it -> Forall (fit_ok s nb) its) ->
  fcalls evs = [] -> fnotified evs = [] ->
  fninv st (it :: stack) tr -> fninv st' (its ++ stack) (tr ++ evs).
Proof.
  intros st st' it stack its evs tr Hc Hn Hs Hr Hf Hp Hi Hy Ho [N1 N2]. unfold fninv. rewrite fcalls_app, Hy, app_nil_r.
  rewrite Hn. split; [exact N1|]. rewrite fnotified_app, Ho, app_nil_r, Hc, Hs.
  change (it :: stack) with ([it] ++ stack) in N2. rewrite fruns_app, fpend_app, ffins_app, <- Hr, <- Hp, <- Hf, <- fruns_app, <- fpend_app, <- ffins_app in N2.
  destruct (closer (fcalls tr)) as [c|] eqn:W; [|exact N2].
  destruct N2 as (A & [B1 B2] & C & D). split; [exact A|]. split; [|split; [exact C|exact D]].
  split; apply Forall_app; split; auto.
  - apply Hi; [auto|]. apply Forall_app in B1 as [B1 _]. inversion B1; assumption.
  - apply Forall_app in B1. apply B1.
  - apply (fquiet_events (fsignal (fcalls tr)) (fearly (fcalls tr)) evs Ho).
Qed.

Lemma fsignal_app : forall l c x, closer l = Some x -> fsignal (l ++ [c]) = fsignal l.
Proof. intros l c x H. unfold fsignal. rewrite closer_app, H. reflexivity. Qed.
Lemma fearly_app : forall l c x, closer l = Some x -> fearly (l ++ [c]) = fearly l.
Proof. intros l c x H. unfold fearly. rewrite upto_app, H. reflexivity. Qed.
Lemma fearly_le : forall l, fearly l <= fregistered l.
Proof.
  unfold fearly, fregistered. induction l as [|c l IH]; [reflexivity|]. cbn [upto]. destruct (closes c) eqn:Cc.
  - destruct c; try discriminate Cc; cbn; lia.
  - cbn [filter]. destruct c; cbn [length]; try exact IH; lia.
Qed.

(** Calls other than Notify. *)
Lemma fninv_call : forall st st' c stack its tr, fninv st (FDo c :: stack) tr -> (match c with FNotify => False | _ => True end) ->
  f_cbs st' = f_cbs st -> f_notified st' = f_notified st -> f_signal st' = f_signal st ->
  fpend its = [] -> (forall s nb, Forall (fit_ok s nb) its) ->
  fruns its = (match closer (fcalls tr) with Some _ => 0 | None => if term c then 1 else 0 end) ->
  (closer (fcalls tr) = None -> term c = true -> ffins its = 1) ->
  fninv st' (its ++ stack) (tr ++ [VCall c]).
Proof.
  intros st st' c stack its tr [N1 N2] NN Hc Hn Hs Hp Hi Hr Hf.
  assert (R0 : fregistered [c] = 0) by (destruct c; reflexivity || contradiction).
  unfold fninv. rewrite fcalls_app. change (fcalls [VCall c]) with [c]. rewrite fregistered_app, R0, Nat.add_0_r, Hn, Hc, Hs.
  split; [exact N1|]. rewrite fnotified_app, app_nil_r, closer_app, fruns_app, fpend_app, Hp, Hr.
  change (fruns (FDo c :: stack)) with (fruns stack) in N2. change (fpend (FDo c :: stack)) with (fpend stack) in N2. change (ffins (FDo c :: stack)) with (ffins stack) in N2.
  destruct (closer (fcalls tr)) as [x|] eqn:X.
  - rewrite (fsignal_app _ _ _ X), (fearly_app _ _ _ X). destruct N2 as (A & [B1 B2] & [C1 C2] & D). split; [exact A|]. split; [|split; [|exact D]].
    + split; [|apply Forall_app; split; [exact B2|repeat constructor]]. apply Forall_app. split; [apply Hi|inversion B1; assumption].
    + split; [exact C1|]. rewrite ffins_app. intro Z. apply C2. lia.
  - destruct N2 as (A & B & C & D & F). rewrite A, B, C, D.
    assert (Ne : fearly (fcalls tr ++ [c]) = fregistered (fcalls tr)).
    { unfold fearly. rewrite upto_app, X, fregistered_app. assert (Z : fregistered (upto [c]) = 0) by (destruct c; reflexivity || contradiction). lia. }
    unfold closer. cbn [find]. destruct (closes c) eqn:Cc.
    + rewrite Ne. split; [auto|]. split; [split|].
      * apply Forall_app. split; [apply Hi|]. apply fquiet_items; assumption.
      * apply Forall_app. split; [apply fquiet_events; assumption|repeat constructor].
      * split; [|split].
        -- split; [left; exact F|]. intro Z. rewrite ffins_app in Z. rewrite F. unfold fsignal. rewrite closer_app, X. unfold closer. cbn [find]. rewrite Cc.
           destruct c; try reflexivity. exfalso. specialize (Hf eq_refl eq_refl). lia.
        -- destruct (term c); lia.
        -- unfold due. destruct (term c); cbn [Nat.add Nat.eqb app].
           ++ apply Permutation_refl.
           ++ rewrite Nat.sub_diag. constructor.
    + assert (term c = false) by (destruct c; try reflexivity; discriminate Cc). rewrite H. repeat split; auto.
Qed.

Lemma fninv_step : forall st it stack tr st' its new evs, finv st (it :: stack) tr -> fninv st (it :: stack) tr ->
  fstep true g st it = Some (st', its, new, evs) -> fninv st' (its ++ stack) (tr ++ evs).
Proof.
  intros st it stack tr st' its new evs IV N H.
  destruct it as [|n|c|c|b e| | |n|n|n|s|s]; cbn [fstep] in H; try discriminate.
  - assert (Cl := closed_head _ _ _ _ IV eq_refl).
    destruct c as [| |v| |e|r k|n| |].
    + destruct (f_sub st); [discriminate|]. injection H as <- <- <- <-. apply (fninv_call st); auto; try (intros; repeat constructor).
      destruct (closer (fcalls tr)); reflexivity. discriminate.
    + (* Notify *)
      assert (K : fregistered (fcalls (tr ++ [VCall FNotify])) = S (fregistered (fcalls tr))).
      { rewrite fcalls_app, fregistered_app. cbn. lia. }
      destruct N as [N1 N2].
      assert (Sx : seq 0 (S (fregistered (fcalls tr))) = seq 0 (fregistered (fcalls tr)) ++ [f_notified st]).
      { rewrite N1. change [fregistered (fcalls tr)] with (seq (0 + fregistered (fcalls tr)) 1). rewrite <- seq_app. f_equal. lia. }
      destruct (closer (fcalls tr)) as [x|] eqn:X.
      * assert (Sub : f_sub st = true) by (destruct IV as [_ _ _ S _ _]; apply S; exact Cl). rewrite Sub, Cl in H. cbn [andb] in H. injection H as <- <- <- <-.
        unfold fninv. rewrite K. rewrite fcalls_app. change (fcalls [VCall FNotify]) with [@FNotify T E]. rewrite closer_app, X, (fsignal_app _ _ _ X), (fearly_app _ _ _ X).
        cbn [set_cbs f_cbs f_notified f_signal]. split; [lia|]. destruct N2 as ((A1 & A2) & (B1 & B2) & (C1 & C2) & D1 & D2).
        rewrite fnotified_app. change (fnotified [VCall FNotify]) with (@nil nat). rewrite app_nil_r. cbn [app].
        change (fruns (FEmit true (VNotify (f_notified st) (f_signal st)) :: stack)) with (fruns stack).
        change (ffins (FEmit true (VNotify (f_notified st) (f_signal st)) :: stack)) with (ffins stack).
        change (fpend (FEmit true (VNotify (f_notified st) (f_signal st)) :: stack)) with (f_notified st :: fpend stack).
        split; [split; [assumption|lia]|]. split; [split|split; [split|split]].
        -- constructor; [|inversion B1; assumption]. cbn. destruct C1 as [C1|C1]; [right; split; [assumption|lia]|left; assumption].
        -- apply Forall_app; split; [assumption|repeat constructor].
        -- exact C1.
        -- exact C2.
        -- exact D1.
        -- assert (Z : due x (fearly (fcalls tr)) (S (fregistered (fcalls tr))) = due x (fearly (fcalls tr)) (fregistered (fcalls tr)) ++ [f_notified st]).
           { unfold due. destruct (term x); [exact Sx|]. rewrite N1. replace [fregistered (fcalls tr)] with (seq (fearly (fcalls tr) + (fregistered (fcalls tr) - fearly (fcalls tr))) 1).
             - rewrite <- seq_app. f_equal. lia.
             - cbn. f_equal. lia. }
           rewrite Z. cbn [app]. etransitivity; [apply Permutation_sym, Permutation_middle|]. etransitivity; [|apply Permutation_cons_append]. constructor. exact D2.
      * rewrite Cl, andb_false_r in H. injection H as <- <- <- <-.
        unfold fninv. rewrite K. rewrite fcalls_app. change (fcalls [VCall FNotify]) with [@FNotify T E]. rewrite closer_app, X. cbn [closer find closes].
        cbn [set_cbs f_cbs f_notified f_signal app]. destruct N2 as (A & B & C & D & F). split; [lia|].
        rewrite fnotified_app. repeat split; auto; [rewrite C; reflexivity|]. rewrite D. symmetry. exact Sx.
    + destruct (f_sub st); [|discriminate]. cbn in H. rewrite Cl in H. destruct (closer (fcalls tr)) eqn:X; injection H as <- <- <- <-;
        (apply (fninv_call st); auto; try rewrite X; try reflexivity; try (intros; repeat constructor); discriminate).
    + destruct (f_sub st); [|discriminate]. cbn in H. rewrite Cl in H. destruct (closer (fcalls tr)) eqn:X; injection H as <- <- <- <-;
        (apply (fninv_call st); auto; try rewrite X; try reflexivity; try (intros; repeat constructor); discriminate).
    + destruct (f_sub st); [|discriminate]. cbn in H. rewrite Cl in H. destruct (closer (fcalls tr)) eqn:X; injection H as <- <- <- <-;
        (apply (fninv_call st); auto; try rewrite X; try reflexivity; try (intros; repeat constructor); discriminate).
    + destruct (f_sub st); [|discriminate]. cbn in H. rewrite Cl in H. destruct (closer (fcalls tr)) eqn:X; injection H as <- <- <- <-;
        (apply (fninv_call st); auto; try rewrite X; try reflexivity; try (intros; repeat constructor); discriminate).
    + destruct (f_sub st); [|discriminate]. injection H as <- <- <- <-. apply (fninv_call st); auto; try (intros; repeat constructor); try discriminate.
      destruct (closer (fcalls tr)); reflexivity.
    + destruct (f_sub st); [|discriminate]. injection H as <- <- <- <-. apply (fninv_call st); auto; try discriminate.
      * destruct (f_can st), (k_finally g); reflexivity.
      * intros. repeat constructor; [destruct (f_can st)|destruct (k_finally g)]; exact I.
      * destruct (closer (fcalls tr)), (f_can st), (k_finally g); reflexivity.
    + destruct (f_sub st); [|discriminate]. injection H as <- <- <- <-. apply (fninv_call st); auto; try (intros; repeat constructor); try discriminate.
      destruct (closer (fcalls tr)); reflexivity.
  - assert (Sig : closes c = true -> closer (fcalls tr) = Some c).
    { intro Cc. destruct IV as [_ _ (_ & _ & C3) _ _ _]. rewrite Cc in C3. exact C3. }
    destruct c as [| |v| |e|r k|n| |]; try discriminate; injection H as <- <- <- <-.
    + apply (fninv_same st _ (FCommit (FNext v))); try reflexivity; try exact N.
      * destruct (k_next g); reflexivity.
      * intros. repeat constructor. destruct (k_next g); exact I.
    + apply (fninv_same st _ (FCommit FComplete)); try reflexivity; try exact N.
      * destruct (k_complete g); reflexivity.
      * intros s nb Hs _. constructor; [destruct (k_complete g); exact I|]. constructor; [|constructor]. cbn [fit_ok]. rewrite Hs by (cbn; lia).
        unfold fsignal. rewrite (Sig eq_refl). reflexivity.
    + apply (fninv_same st _ (FCommit (FError e))); try reflexivity; try exact N.
      * destruct (k_error g); reflexivity.
      * intros s nb Hs _. constructor; [destruct (k_error g); exact I|]. constructor; [|constructor]. cbn [fit_ok]. rewrite Hs by (cbn; lia).
        unfold fsignal. rewrite (Sig eq_refl). reflexivity.
    + apply (fninv_same st _ (FCommit (FOnSubscribe r k))); try reflexivity; try exact N.
      * destruct (0 <? f_n st)%Z; reflexivity.
      * destruct (0 <? f_n st)%Z; reflexivity.
      * destruct (0 <? f_n st)%Z; reflexivity.
      * intros. destruct (0 <? f_n st)%Z; repeat constructor.
  - assert (M : emit_ok (FEmit b e) = true) by (destruct IV as [_ _ _ _ _ M]; cbn [forallb] in M; apply andb_true_iff in M; apply M).
    destruct b; [|injection H as <- <- <- <-; apply (fninv_same st st (FEmit false e)); auto].
    destruct (match e with VNotify _ _ => true | _ => false end) eqn:Ne.
    + destruct e as [| | | | | | | |k sg]; try discriminate Ne. injection H as <- <- <- <-. destruct N as [N1 N2].
      unfold fninv. rewrite fcalls_app, app_nil_r. split; [exact N1|]. rewrite fnotified_app. change (fnotified [VNotify k sg]) with [k].
      change (fpend (FEmit true (VNotify k sg) :: stack)) with ([k] ++ fpend stack) in N2. change (fpend ([FUser] ++ stack)) with (fpend stack).
      change (fruns (FEmit true (VNotify k sg) :: stack)) with (fruns stack) in N2. change (fruns ([FUser] ++ stack)) with (fruns stack).
      destruct (closer (fcalls tr)) as [c|]; [|destruct N2 as (_ & N2 & _); discriminate N2].
      destruct N2 as (A & (B1 & B2) & C & D1 & D2). inversion B1 as [|x y B3 B4]; subst.
      split; [exact A|]. split; [split|split; [exact C|split; [exact D1|]]].
      * constructor; [exact I|assumption].
      * apply Forall_app; split; [assumption|]. constructor; [exact B3|constructor].
      * rewrite <- !app_assoc. rewrite <- app_assoc in D2. exact D2.
    + assert (X : st' = st /\ (its = [FUser] \/ exists n, its = [FSrc n]) /\ evs = [e]).
      { destruct e; injection H as <- <- <- <-; repeat split; auto. right. exists n. reflexivity. }
      destruct X as (-> & X & ->).
      apply (fninv_same st st (FEmit true e)); auto; destruct X as [-> | [n ->]]; destruct e; try discriminate Ne; try discriminate M; try reflexivity;
        intros; repeat constructor.
  - injection H as <- <- <- <-. apply (fninv_same st st FAfter); auto; intros; destruct (f_n st =? 0)%Z; repeat constructor.
  - injection H as <- <- <- <-. apply (fninv_same st st FHandle); auto; intros; destruct (k_norequest g), (k_request g); repeat constructor.
  - injection H as <- <- <- <-. apply (fninv_same st _ (FReq n)); auto; intros; destruct (f_req st); repeat constructor.
  - injection H as <- <- <- <-. apply (fninv_same st _ (FDoReq n)); auto; intros; repeat constructor.
  - destruct (f_req st); [|discriminate]. injection H as <- <- <- <-. apply (fninv_same st _ (FRunSrc n)); auto; intros; repeat constructor.
  - injection H as <- <- <- <-. destruct N as [N1 N2]. unfold fninv. rewrite app_nil_r. split; [exact N1|].
    change (fruns (FFin s :: stack)) with (S (fruns stack)) in N2. change (fpend (FFin s :: stack)) with (fpend stack) in N2.
    assert (P0 : fpend ([FEmit (k_finally g) (VFinally s); FRunCbs s] ++ stack) = fpend stack) by (destruct (k_finally g); reflexivity).
    assert (R0 : fruns ([FEmit (k_finally g) (VFinally s); FRunCbs s] ++ stack) = S (fruns stack)) by (destruct (k_finally g); reflexivity).
    rewrite P0, R0. destruct (closer (fcalls tr)) as [c|]; [|destruct N2 as [N2 _]; discriminate N2].
    destruct N2 as (A & (B1 & B2) & C & D). inversion B1 as [|x y B3 B4]; subst. cbn [fit_ok] in B3.
    split; [exact A|]. split; [split|split; [split|exact D]].
    + cbn [app]. constructor; [destruct (k_finally g); exact I|]. constructor; [exact B3|assumption].
    + exact B2.
    + right. exact B3.
    + intros _. exact B3.
  - injection H as <- <- <- <-. destruct N as [N1 N2]. unfold fninv. rewrite app_nil_r. split; [exact N1|].
    change (fruns (FRunCbs s :: stack)) with (S (fruns stack)) in N2. change (fpend (FRunCbs s :: stack)) with (fpend stack) in N2.
    change (ffins (FRunCbs s :: stack)) with (ffins stack) in N2.
    assert (Pm : forall l : list nat, fpend (map (fun k => FEmit true (VNotify k s)) l) = l) by (induction l as [|k q IH]; [reflexivity|]; change (k :: fpend (map (fun k => FEmit true (VNotify k s)) q) = k :: q); f_equal; exact IH).
    assert (Rm : forall l : list nat, fruns (map (fun k => FEmit true (VNotify k s)) l) = 0) by (induction l as [|k q IH]; [reflexivity|exact IH]).
    assert (Fm : forall l : list nat, ffins (map (fun k => FEmit true (VNotify k s)) l) = 0) by (induction l as [|k q IH]; [reflexivity|exact IH]).
    rewrite fruns_app, fpend_app, ffins_app, Pm, Rm, Fm. cbn [Nat.add].
    destruct (closer (fcalls tr)) as [c|]; [|destruct N2 as [N2 _]; discriminate N2].
    destruct N2 as (A & (B1 & B2) & C & D1 & D2). inversion B1 as [|x y B3 B4]; subst. cbn [fit_ok] in B3.
    destruct (term c) eqn:Tc; [|discriminate D1]. assert (Z : fruns stack = 0) by lia. rewrite Z in *.
    split; [exact A|]. split; [split|split; [exact C|split; [lia|]]].
    + apply Forall_app. split; [|assumption]. apply Forall_forall. intros x Hx. apply in_map_iff in Hx as (k & <- & _). left. exact B3.
    + exact B2.
    + etransitivity; [|exact D2]. cbn [Nat.eqb]. rewrite app_nil_r. apply Permutation_app_head, Permutation_app_comm.
Qed.

Lemma freach_ninv_aux : forall st ths tr, freach true g st ths tr -> forall stack, ths = [stack] -> fninv st stack tr.
Proof.
  intros st ths tr H. induction H as [n|st l u stack r tr c H IH U|st l u stack r tr H IH U N|st l it stack r tr st' its new evs H IH S]; intros stk Es.
  - destruct n as [|[|n]]; try discriminate. injection Es as <-. repeat split.
  - apply one_thread in Es as (-> & -> & <-). destruct (IH _ eq_refl) as [N1 N2]. split; [exact N1|].
    destruct (closer (fcalls tr)); [|exact N2]. destruct N2 as (A & (B1 & B2) & C). split; [exact A|]. split; [|exact C].
    split; [constructor; [exact I|exact B1]|exact B2].
  - apply one_thread in Es as (-> & -> & <-). destruct (IH _ eq_refl) as [N1 N2]. split; [exact N1|].
    destruct u; try discriminate U; (destruct (closer (fcalls tr)); [|exact N2]; destruct N2 as (A & (B1 & B2) & C); split; [exact A|]; split; [|exact C];
    split; [inversion B1; assumption|exact B2]).
  - assert (X : exists q, new = q /\ l ++ (its ++ stack) :: r ++ new = [stk]) by (exists new; auto). destruct X as (q & _ & X).
    apply one_thread in X as (-> & X & <-). apply app_eq_nil in X as [-> ->].
    apply (fninv_step st it stack tr st' its [] evs); auto. apply freach_inv. exact H.
Qed.

Lemma nodup_app_l : forall {A} (a b : list A), NoDup (a ++ b) -> NoDup a.
Proof.
  induction a as [|x a IH]; intros b H; [constructor|]. cbn in H. inversion H; subst. constructor; [|eapply IH; eassumption].
  intro. apply H2, in_or_app. left. assumption.
Qed.

Theorem fnotify_proof : forall st stack tr, freach true g st [stack] tr ->
  match closer (fcalls tr) with
  | None => fnotified tr = []
  | Some c =>
    NoDup (fnotified tr) /\
    (stack = [FUser] -> Permutation (fnotified tr)
       (if term c then seq 0 (fregistered (fcalls tr)) else seq (fearly (fcalls tr)) (fregistered (fcalls tr) - fearly (fcalls tr)))) /\
    (forall k s, In (VNotify k s) tr -> s = fsignal (fcalls tr) \/ (s = SigComplete /\ fearly (fcalls tr) <= k))
  end.
Proof.
  intros st stack tr R. destruct (freach_ninv_aux _ _ _ R _ eq_refl) as [_ N]. destruct (closer (fcalls tr)) as [c|]; [|apply N].
  destruct N as (A & (B1 & B2) & C & D1 & D2). split; [|split].
  - apply Permutation_sym in D2. eapply nodup_app_l. eapply Permutation_NoDup; [exact D2|]. unfold due. destruct (term c); apply seq_NoDup.
  - intros ->. cbn in D2. rewrite app_nil_r in D2. exact D2.
  - intros k s K. rewrite Forall_forall in B2. apply (B2 _ K).
Qed.
End Proofs.

(** * When Finally runs once *)
Section Once.
Context {T E : Type} (g : fcfg).
Implicit Types (tr : list (fevent T E)) (l : list (fcall T E)).
Lemma cancels_none : forall l, closer l = None -> cancels l = 0.
Proof.
  induction l as [|c l IH]; [reflexivity|]. unfold closer, cancels in *. cbn [find filter]. destruct (closes c) eqn:Cc; [discriminate|].
  intro H. specialize (IH H). destruct c; try discriminate Cc; exact IH.
Qed.
Lemma cancel_signals : forall l, length (flat_map (fun c => match c with FCancel => [SigCancel] | _ => [] end) l) = cancels l.
Proof. unfold cancels. induction l as [|c l IH]; [reflexivity|]. destruct c; cbn; rewrite ?IH; reflexivity. Qed.
Theorem finally_once_proof : forall st tr, freach true g st [[FUser]] tr -> k_finally g = true -> length (finals tr) = 1 <-> finally_once (fcalls tr).
Proof.
  intros st tr R K. rewrite (Permutation_length (finals_proof g st tr R)). unfold expected_finals, finally_once. rewrite K, app_length, cancel_signals.
  assert (N := cancels_none (fcalls tr)). destruct (closer (fcalls tr)) as [c|]; [destruct c; cbn; lia|]. rewrite (N eq_refl). cbn. lia.
Qed.
Theorem block_proof : forall st tr, freach true g st [[FUser]] tr -> k_finally g = true ->
  (block_after tr = Returned <-> finally_once (fcalls tr)) /\
  (block_after tr = Waiting <-> cancels (fcalls tr) = 0 /\ (closer (fcalls tr) = None \/ closer (fcalls tr) = Some FClose)).
Proof.
  intros st tr R K. rewrite <- (finally_once_proof st tr R K). split.
  - unfold block_after. destruct (finals tr) as [|a [|b f]]; cbn; split; intro H; try discriminate; reflexivity.
  - assert (P := finals_proof g st tr R). apply Permutation_length in P. unfold expected_finals in P. rewrite K, app_length, cancel_signals in P.
    assert (N := cancels_none (fcalls tr)). unfold block_after. split.
    + intro H. destruct (finals tr) as [|a [|b f]]; try discriminate H. cbn in P. destruct (closer (fcalls tr)) as [c|] eqn:C.
      * split; [lia|]. right. unfold closer in C. apply find_some in C as [C1 C2]. destruct c; try discriminate C2; cbn in P; try lia; [|reflexivity].
        exfalso. assert (cancels (fcalls tr) > 0); [|lia]. clear - C1. unfold cancels. induction (fcalls tr) as [|x l IH]; [contradiction|].
        destruct C1 as [->|C1]; [cbn; lia|]. cbn [filter]. destruct x; cbn; try apply IH in C1; lia.
      * split; [lia|left; reflexivity].
    + intros (H1 & H2). rewrite H1, Nat.add_0_r in P. destruct (finals tr); [reflexivity|]. destruct H2 as [H2|H2]; rewrite H2 in P; discriminate P.
Qed.
End Once.

(** * Map *)
Section MapProofs.
Context {T E D : Type} (tx : T -> D + E) (g : fcfg) (kr knr : bool).
Definition source_cfg : fcfg := mkF true (k_complete g) (k_error g) kr (k_finally g) knr.
Implicit Types (tr : list (fevent T E)) (l : list (fcall T E)).

Lemma map_delivered : forall tr, delivered (flat_map (fmap_event tx g) tr) = flat_map (fun e => delivered (fmap_event tx g e)) (delivered tr).
Proof.
  induction tr as [|e tr IH]; [reflexivity|]. cbn [flat_map]. unfold delivered at 1. rewrite filter_app. fold (delivered (flat_map (fmap_event tx g) tr)). rewrite IH.
  destruct e; cbn [delivered filter is_delivery flat_map]; try reflexivity. cbn [fmap_event]. destruct (k_finally g); reflexivity.
Qed.
Lemma map_expected_eq : forall l, flat_map (fun e => delivered (fmap_event tx g e)) (expected source_cfg l) = map_expected tx g l.
Proof.
  intro l. unfold expected, map_expected. induction (upto l) as [|c q IH]; [reflexivity|]. cbn [flat_map]. rewrite flat_map_app, IH. f_equal.
  destruct c; cbn; try reflexivity.
  - rewrite app_nil_r. destruct (tx v); [destruct (k_next g); reflexivity|]. destruct (k_error g), (k_finally g); reflexivity.
  - destruct (k_complete g) eqn:K; cbn; rewrite ?K; reflexivity.
  - destruct (k_error g) eqn:K; cbn; rewrite ?K; reflexivity.
Qed.
Theorem mapped_deliveries_proof : forall st stack tr, freach true source_cfg st [stack] tr ->
  (exists d, map_expected tx g (fcalls tr) = delivered (flat_map (fmap_event tx g) tr) ++ d) /\
  (match stack with u :: _ => is_user u = true | [] => False end -> delivered (flat_map (fmap_event tx g) tr) = map_expected tx g (fcalls tr)).
Proof.
  intros st stack tr R. destruct (deliveries_proof source_cfg st stack tr R) as [[d D1] D2]. rewrite map_delivered, <- map_expected_eq. split.
  - rewrite D1, flat_map_app. eexists. reflexivity.
  - intro U. rewrite (D2 U). reflexivity.
Qed.

Definition bad_next (e : fevent T E) : bool := match e with VNext v => match tx v with inr _ => true | _ => false end | _ => false end.
Lemma map_finals : forall tr, Permutation (finals (flat_map (fmap_event tx g) tr))
  (if k_finally g then finals tr ++ map (fun _ => SigError) (filter bad_next tr) else []).
Proof.
  induction tr as [|e tr IH]; [destruct (k_finally g); reflexivity|]. cbn [flat_map]. unfold finals at 1. rewrite flat_map_app. fold (finals (flat_map (fmap_event tx g) tr)).
  destruct (k_finally g) eqn:K.
  - destruct e as [c|v| |e|sg| |n| |k sg]; try exact IH.
    + change (finals (VNext v :: tr)) with (finals tr). cbn [fmap_event filter bad_next]. destruct (tx v).
      * destruct (k_next g); exact IH.
      * rewrite K. cbn [map]. rewrite flat_map_app. destruct (k_error g); cbn [flat_map app]; (etransitivity; [apply perm_skip; exact IH|]; apply Permutation_middle).
    + cbn [fmap_event]. destruct (k_complete g); exact IH.
    + cbn [fmap_event]. destruct (k_error g); exact IH.
    + cbn [fmap_event]. rewrite K. cbn [flat_map app finals filter bad_next]. apply perm_skip. exact IH.
  - etransitivity; [|exact IH]. destruct e; cbn [fmap_event]; rewrite ?K; try reflexivity.
    + destruct (tx v); [destruct (k_next g)|destruct (k_error g)]; reflexivity.
    + destruct (k_complete g); reflexivity.
    + destruct (k_error g); reflexivity.
Qed.
Lemma bad_delivered : forall tr, filter bad_next tr = filter bad_next (delivered tr).
Proof. induction tr as [|e tr IH]; [reflexivity|]. destruct e; cbn [delivered filter is_delivery bad_next]; rewrite ?IH; try reflexivity. Qed.
Lemma bad_expected : forall l, length (filter bad_next (expected source_cfg l)) = length (failing tx l).
Proof.
  intro l. unfold expected, failing. induction (upto l) as [|c q IH]; [reflexivity|]. cbn [flat_map filter]. rewrite filter_app, app_length, IH.
  destruct c; cbn; try reflexivity.
  - destruct (tx v); reflexivity.
  - destruct (k_complete g); reflexivity.
  - destruct (k_error g); reflexivity.
Qed.
Theorem mapped_finals_proof : forall st tr, freach true source_cfg st [[FUser]] tr ->
  Permutation (finals (flat_map (fmap_event tx g) tr))
    (expected_finals g (fcalls tr) ++ (if k_finally g then repeat SigError (length (failing tx (fcalls tr))) else [])).
Proof.
  intros st tr R. etransitivity; [apply map_finals|]. assert (F := finals_proof source_cfg st tr R).
  destruct (deliveries_proof source_cfg st _ tr R) as [_ X]. specialize (X eq_refl). rewrite bad_delivered, X.
  unfold expected_finals in *. cbn [source_cfg k_finally] in F. destruct (k_finally g); [|reflexivity].
  apply Permutation_app; [exact F|]. rewrite <- (bad_expected (fcalls tr)). clear.
  induction (filter bad_next (expected source_cfg (fcalls tr))); cbn; [reflexivity|]. apply perm_skip. assumption.
Qed.

(** Well-formed outputs. *)
Hypothesis All : k_next g = true /\ k_complete g = true /\ k_error g = true.
Lemma silent_nil : forall q, flat_map (map_delivers tx g) q = [] <-> existsb delivering q = false.
Proof.
  destruct All as (A1 & A2 & A3). induction q as [|c q IH]; [split; reflexivity|]. cbn [flat_map existsb].
  destruct c; cbn [map_delivers delivering app orb]; rewrite ?A1, ?A2, ?A3; try exact IH; try (split; discriminate).
  destruct (tx v); rewrite ?A1, ?A3; split; discriminate.
Qed.
Lemma mapped_wf_proof : forall l, well_formed (map_expected tx g l) = true <-> silent_after tx (upto l) = true.
Proof.
  destruct All as (A1 & A2 & A3). unfold map_expected. induction l as [|c l IH]; [split; reflexivity|]. cbn [upto]. destruct (closes c) eqn:Cc.
  - destruct c; try discriminate Cc; cbn; rewrite ?A2, ?A3; split; reflexivity.
  - cbn [flat_map silent_after fails]. destruct c; try discriminate Cc; cbn [map_delivers fails app]; try exact IH.
    destruct (tx v) as [d|e]; rewrite ?A1, ?A3; cbn [app].
    + cbn [well_formed]. destruct (flat_map (map_delivers tx g) (upto l)) eqn:Q; [|exact IH]. rewrite <- IH. split; reflexivity.
    + assert (S := silent_nil (upto l)). cbn [well_formed]. destruct (flat_map (map_delivers tx g) (upto l)).
      * rewrite (proj1 S eq_refl). split; reflexivity.
      * destruct (existsb delivering (upto l)); [split; discriminate|]. discriminate (proj2 S eq_refl).
Qed.
End MapProofs.

(** * Schedules *)
Section Exec.
Context {T E : Type} (sync : bool) (g : fcfg).
Inductive fmove := NCall (n : nat) (c : fcall T E) | NRet (n : nat) | NStep (n : nat).
Definition fconf : Type := flst * list (list (fitem T E)) * list (fevent T E).
Definition fat (n : nat) (ths : list (list (fitem T E))) := match nth_error ths n with Some s => Some (firstn n ths, s, skipn (S n) ths) | None => None end.
Definition do_fmove (m : fmove) (x : fconf) : option fconf :=
  let '(st, ths, tr) := x in
  match m with
  | NCall n c => match fat n ths with Some (l, u :: s, r) => if is_user u then Some (st, l ++ (FDo c :: u :: s) :: r, tr) else None | _ => None end
  | NRet n => match fat n ths with Some (l, u :: (i :: s), r) => if is_user u then Some (st, l ++ (i :: s) :: r, tr) else None | _ => None end
  | NStep n => match fat n ths with
               | Some (l, it :: s, r) => match fstep sync g st it with Some (st', its, new, evs) => Some (st', l ++ (its ++ s) :: r ++ new, tr ++ evs) | None => None end
               | _ => None
               end
  end.
Fixpoint fexec (ms : list fmove) (x : fconf) : option fconf :=
  match ms with
  | [] => Some x
  | m :: ms' => match do_fmove m x with Some y => fexec ms' y | None => None end
  end.
Lemma fat_spec : forall n ths l s r, fat n ths = Some (l, s, r) -> ths = l ++ s :: r.
Proof.
  intros n ths l s r H. unfold fat in H. destruct (nth_error ths n) as [x|] eqn:X; [|discriminate]. injection H as <- <- <-.
  revert n X. induction ths as [|a ths IH]; intros [|n] X; try discriminate; cbn in X |- *; [congruence|]. f_equal. apply IH. exact X.
Qed.
Lemma fexec_sound : forall ms st ths tr st' ths' tr', freach sync g st ths tr -> fexec ms (st, ths, tr) = Some (st', ths', tr') -> freach sync g st' ths' tr'.
Proof.
  induction ms as [|m ms IH]; intros st ths tr st' ths' tr' R H; [cbn in H; congruence|].
  cbn [fexec] in H. destruct (do_fmove m (st, ths, tr)) as [[[st1 ths1] tr1]|] eqn:Dm; [|discriminate].
  apply (IH st1 ths1 tr1); [|exact H]. clear IH H. destruct m as [n c|n|n]; cbn [do_fmove] in Dm;
    destruct (fat n ths) as [[[l [|it s]] r]|] eqn:A; try discriminate Dm; apply fat_spec in A; subst ths.
  - destruct (is_user it) eqn:U; try discriminate Dm. injection Dm as <- <- <-. apply f_call; assumption.
  - destruct s as [|i s]; [discriminate Dm|]. destruct (is_user it) eqn:U; try discriminate Dm. injection Dm as <- <- <-. eapply f_return; [exact R|exact U|discriminate].
  - destruct (fstep sync g st it) as [[[[st2 its] new] evs]|] eqn:Sf; [|discriminate Dm]. injection Dm as <- <- <-. eapply f_step; [exact R|exact Sf].
Qed.
End Exec.
Arguments fmove : clear implicits.
