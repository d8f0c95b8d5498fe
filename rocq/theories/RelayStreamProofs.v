(** A streaming call through the mesh: the object the two streams share is in the same state on both sides. *)
From Coq Require Import List NArith ZArith Lia Bool ZifyBool ZifyNat ZifyN.
From Verif Require Import Base BaseLemmas FramesModel FramesSpec FramesProofs OperationsModel InvokeModel MonoModel FluxModel FluxSpec ProxyModel ProxySpec DispatchModel DispatchSpec ResponderModel ResponderSpec ResponderProofs ResponderSlice ResponderSerial MeshModel.
From Verif Require Import StreamModel StreamSpec StreamSides StreamWire StreamInv StreamProofs RelayStreamModel RelayStreamSpec.
From Verif Require CallModel CallSpec StreamIdModel RelayModel RelaySpec RelayProofs MeshProofs.
Import ListNotations.
Open Scope N_scope.

Lemma cut_at : forall {A} (l : list A) x r, CallModel.cut (length l) (l ++ x :: r) = Some (l, x, r).
Proof.
  intros A l x r. unfold CallModel.cut. rewrite nth_error_app2, Nat.sub_diag by lia. cbn [nth_error]. f_equal. f_equal; [f_equal|].
  - rewrite firstn_app, firstn_all, Nat.sub_diag. apply app_nil_r.
  - rewrite skipn_app, skipn_all2 by lia. replace (S (length l) - length l)%nat with 1%nat by lia. reflexivity.
Qed.

(** ** What moves do to their own side *)
Section Moves.
Context {H : Type}.
Context (wp wr : site) (tp tr : ikind -> list (option H)) (sp sr : bool) (g : fcfg) (sid : N) (data md : bytes).
Notation gin := (mkF false false false false false false).
Notation do_move := (do_move wp wr tp tr sp sr g sid data md).
Ltac crush X := repeat match type of X with context [match ?x with _ => _ end] => destruct x; try discriminate X end; injection X as <-.

Lemma inv_rstep : forall (c c' : conf H) l s rest, c_rths c = l ++ s :: rest -> do_move c (MRStep (length l)) = Some c' ->
  exists it stack st its new evs, s = it :: stack /\ rstep sr gin sid (initial c) (c_r c) it = Some (st, its, new, evs) /\
    c_r c' = st /\ c_rths c' = l ++ (its ++ stack) :: rest ++ new /\ c_rtr c' = c_rtr c ++ evs /\ c_runs c' = c_runs c.
Proof.
  intros c c' l s rest E X. cbn [StreamModel.do_move] in X. rewrite E, cut_at in X. destruct s as [|it stack]; [discriminate X|]. destruct (rstep _ _ _ _ _ _) as [[[[st its] new] evs]|] eqn:R; [|discriminate X].
  destruct (posts _ _); [|discriminate X]. injection X as <-. exists it, stack, st, its, new, evs. repeat split. exact R.
Qed.
Lemma inv_rcall : forall (c c' : conf H) l s rest f, c_rths c = l ++ s :: rest -> do_move c (MRCall (length l) f) = Some c' ->
  exists u stack, s = u :: stack /\ is_ruser u = true /\ c_r c' = c_r c /\ c_rths c' = l ++ (RO (FDo f) :: s) :: rest /\ c_rtr c' = c_rtr c /\ c_runs c' = c_runs c.
Proof.
  intros c c' l s rest f E X. cbn [StreamModel.do_move] in X. rewrite E, cut_at in X. destruct s as [|u stack]; [discriminate X|]. destruct (is_ruser u) eqn:U; [|discriminate X]. cbn [andb] in X. destruct (rcalls f); [|discriminate X]. injection X as <-.
  exists u, stack. repeat split; try assumption. apply app_nil_r.
Qed.
Lemma inv_rreturn : forall (c c' : conf H) l s rest, c_rths c = l ++ s :: rest -> do_move c (MRReturn (length l)) = Some c' ->
  exists u it stack, s = u :: it :: stack /\ is_ruser u = true /\ c_r c' = c_r c /\ c_rths c' = l ++ (it :: stack) :: rest /\ c_rtr c' = c_rtr c /\ c_runs c' = c_runs c.
Proof.
  intros c c' l s rest E X. cbn [StreamModel.do_move] in X. rewrite E, cut_at in X. destruct s as [|u [|it stack]]; try discriminate X. destruct (is_ruser u) eqn:U; [|discriminate X]. injection X as <-.
  exists u, it, stack. repeat split; try assumption. apply app_nil_r.
Qed.
Lemma inv_pstep : forall (c c' : conf H) l s rest, c_pths c = l ++ s :: rest -> do_move c (MPStep (length l)) = Some c' ->
  exists it stack st its new evs, s = it :: stack /\ pstep sp g (stream_request sid data md) false (c_p c) it = Some (st, its, new, evs) /\
    c_p c' = st /\ c_pths c' = l ++ (its ++ stack) :: rest ++ new /\ c_ptr c' = c_ptr c ++ evs.
Proof.
  intros c c' l s rest E X. cbn [StreamModel.do_move] in X. rewrite E, cut_at in X. destruct s as [|it stack]; [discriminate X|]. destruct (pstep _ _ _ _ _ _) as [[[[st its] new] evs]|] eqn:R; [|discriminate X].
  destruct (posts _ _); [|discriminate X]. injection X as <-. exists it, stack, st, its, new, evs. repeat split. exact R.
Qed.
Lemma inv_pcall : forall (c c' : conf H) l s rest f, c_pths c = l ++ s :: rest -> do_move c (MPCall (length l) f) = Some c' ->
  exists stack, s = PI FUser :: stack /\ c_p c' = c_p c /\ c_pths c' = l ++ (PI (FDo f) :: s) :: rest /\ c_ptr c' = c_ptr c.
Proof.
  intros c c' l s rest f E X. cbn [StreamModel.do_move] in X. rewrite E, cut_at in X. destruct s as [|[[]| |] stack]; try discriminate X. destruct (pcalls f); [|discriminate X]. injection X as <-.
  exists stack. repeat split; try assumption. apply app_nil_r.
Qed.
Lemma inv_preturn : forall (c c' : conf H) l s rest, c_pths c = l ++ s :: rest -> do_move c (MPReturn (length l)) = Some c' ->
  exists it stack, s = PI FUser :: it :: stack /\ c_p c' = c_p c /\ c_pths c' = l ++ (it :: stack) :: rest /\ c_ptr c' = c_ptr c.
Proof.
  intros c c' l s rest E X. cbn [StreamModel.do_move] in X. rewrite E, cut_at in X. destruct s as [|[[]| |] [|it stack]]; try discriminate X. injection X as <-.
  exists it, stack. repeat split; try assumption. apply app_nil_r.
Qed.
(** The other side. *)
Lemma first_side : forall (c c' : conf H) mv, first_alone mv = true -> do_move c mv = Some c' ->
  c_r c' = c_r c /\ c_rtr c' = c_rtr c /\ c_runs c' = c_runs c /\ (c_rths c' = c_rths c \/ exists x rest, c_rths c = [RO FUser] :: rest /\ c_rths c' = [RNetDo x; RO FUser] :: rest).
Proof.
  intros c c' mv A X. destruct mv; try discriminate A; cbn [StreamModel.do_move] in X; try (crush X; cbn; rewrite ?app_nil_r; auto; fail).
  repeat match type of X with context [match ?x with _ => _ end] => destruct x eqn:?; try discriminate X end; injection X as <-; cbn [set_rths set_r c_r c_rtr c_rths]; rewrite ?app_nil_r; (split; [reflexivity|]); (split; [reflexivity|]); (split; [reflexivity|]); first [left; reflexivity|left; assumption|right; eexists; eexists; split; reflexivity].
Qed.
Lemma second_side : forall (c c' : conf H) mv, second_alone mv = true -> do_move c mv = Some c' ->
  c_p c' = c_p c /\ c_ptr c' = c_ptr c /\ (c_pths c' = c_pths c \/ exists x rest, c_pths c = [PI FUser] :: rest /\ c_pths c' = [PNetDo x; PI FUser] :: rest).
Proof.
  intros c c' mv A X. destruct mv; try discriminate A; cbn [StreamModel.do_move] in X; try (crush X; cbn; rewrite ?app_nil_r; auto; fail).
  repeat match type of X with context [match ?x with _ => _ end] => destruct x eqn:?; try discriminate X end; injection X as <-; cbn [set_pths set_p c_p c_ptr c_pths]; rewrite ?app_nil_r; (split; [reflexivity|]); (split; [reflexivity|]); first [left; reflexivity|left; assumption|right; eexists; eexists; split; reflexivity].
Qed.
Lemma task_side : forall (c c' : conf H) j i, do_move c (MTask j i) = Some c' ->
  c_r c' = c_r c /\ c_rtr c' = c_rtr c /\
  match nth_error (c_tasks c) j with
  | Some (TSend _) | Some (TRegister _ _ _ _) => c_rths c' = c_rths c /\ c_runs c' = c_runs c
  | Some (TStart h d m n) => (forall l s rest, c_rths c = l ++ s :: rest -> i = length l -> c_rths c' = l ++ (RStart :: s) :: rest) /\ c_runs c' = c_runs c ++ [(h, d, m, n)]
  | Some (TRequest n) => (forall l s rest, c_rths c = l ++ s :: rest -> i = length l -> c_rths c' = l ++ (RNetDo (RNRequest n) :: s) :: rest) /\ c_runs c' = c_runs c
  | None => False
  end.
Proof.
  intros c c' j i X. cbn [StreamModel.do_move] in X. destruct (CallModel.cut j (c_tasks c)) as [[[a t] b]|] eqn:C; [|discriminate X]. apply cut_inv in C. destruct C as [_ C]. rewrite C. destruct t.
  - destruct (posts _ _); [|discriminate X]. injection X as <-. cbn. rewrite app_nil_r. auto.
  - injection X as <-. cbn. rewrite app_nil_r. auto.
  - destruct (CallModel.cut i (c_rths c)) as [[[l' s'] r']|] eqn:Ci; [|discriminate X]. destruct s' as [|u s']; [discriminate X|]. destruct (is_ruser u); [|discriminate X]. injection X as <-. cbn. rewrite app_nil_r. do 2 (split; [reflexivity|]).
    split; [|reflexivity]. intros l s rest E ->. rewrite E, cut_at in Ci. injection Ci as <- -> <-. reflexivity.
  - destruct (CallModel.cut i (c_rths c)) as [[[l' s'] r']|] eqn:Ci; [|discriminate X]. destruct s' as [|u s']; [discriminate X|]. destruct (is_ruser u); [|discriminate X]. injection X as <-. cbn. rewrite app_nil_r. do 2 (split; [reflexivity|]).
    split; [|reflexivity]. intros l s rest E ->. rewrite E, cut_at in Ci. injection Ci as <- -> <-. reflexivity.
Qed.
End Moves.

(** ** Stacks that belong together *)
Definition lone1 (x : ritem) : Prop := x = RStart \/ x = RAfter \/ exists n, x = RNetDo (RNRequest n).
Definition lone2 (x : pitem) : Prop := x = PSetComplete \/ exists n, x = PNetDo n.
Inductive mir : list ritem -> list pitem -> Prop :=
| mir_nil : mir [] []
| mir_both : forall it s1 s2, mir s1 s2 -> mir (RO it :: s1) (PI it :: s2)
| mir_user : forall s1 s2, mir s1 s2 -> mir (RO FUser :: s1) s2
| mir_src : forall n s1 s2, mir s1 s2 -> mir (RO (FSrc n) :: s1) s2
| mir_first : forall x s1 s2, lone1 x -> mir s1 s2 -> mir (x :: s1) s2
| mir_second : forall x s1 s2, lone2 x -> mir s1 s2 -> mir s1 (x :: s2).
Lemma not_lone1 : forall it, ~ lone1 (RO it).
Proof. intros it [H|[H|[n H]]]; discriminate H. Qed.
Lemma not_lone2 : forall it, ~ lone2 (PI it).
Proof. intros it [H|[n H]]; discriminate H. Qed.
Lemma mir_pop1 : forall s1 s2 x, mir (x :: s1) s2 -> lone1 x -> mir s1 s2.
Proof.
  intros s1 s2 x M L. remember (x :: s1) as s eqn:E. revert x s1 E L. induction M; intros y s' E L; try discriminate E; try (injection E as <- <-).
  - destruct (not_lone1 _ L).
  - destruct (not_lone1 _ L).
  - destruct (not_lone1 _ L).
  - exact M.
  - apply mir_second; [assumption|]. exact (IHM _ _ E L).
Qed.
Lemma mir_pop2 : forall s1 s2 x, mir s1 (x :: s2) -> lone2 x -> mir s1 s2.
Proof.
  intros s1 s2 x M L. remember (x :: s2) as s eqn:E. revert x s2 E L. induction M; intros y s' E L; try discriminate E; try (injection E as <- <-).
  - destruct (not_lone2 _ L).
  - apply mir_user. exact (IHM _ _ E L).
  - apply mir_src. exact (IHM _ _ E L).
  - apply mir_first; [assumption|]. exact (IHM _ _ E L).
  - exact M.
Qed.
Lemma mir_same : forall it1 it2 s1 s2, mir (RO it1 :: s1) (PI it2 :: s2) -> (forall n, it1 <> FSrc n) -> it1 <> FUser -> it1 = it2 /\ mir s1 s2.
Proof.
  intros it1 it2 s1 s2 M A B. inversion M; subst.
  - auto.
  - destruct (B eq_refl).
  - destruct (A _ eq_refl).
  - exfalso; eapply not_lone1; eassumption.
  - exfalso; eapply not_lone2; eassumption.
Qed.
Lemma mir_hidden : forall it s1 s2, mir (RO FUser :: s1) (PI it :: s2) -> it <> FUser -> mir s1 (PI it :: s2).
Proof.
  intros it s1 s2 M A. inversion M; subst.
  - destruct (A eq_refl).
  - assumption.
  - exfalso; eapply not_lone1; eassumption.
  - exfalso; eapply not_lone2; eassumption.
Qed.
Lemma mir_items : forall its s1 s2, mir s1 s2 -> mir (map RO its ++ s1) (map PI its ++ s2).
Proof. induction its as [|it its IH]; intros s1 s2 M; [exact M|]. cbn [map app]. apply mir_both. apply IH. exact M. Qed.
Lemma mir_new : forall new, Forall2 mir (map (map RO) new) (map (map PI) new).
Proof.
  induction new as [|x l IH]; [constructor|]. cbn [map]. constructor; [|exact IH]. assert (M := mir_items x [] [] mir_nil). rewrite !app_nil_r in M. exact M.
Qed.
Lemma mir_split : forall l1 s1 r1 l2 s2 r2, Forall2 mir (l1 ++ s1 :: r1) (l2 ++ s2 :: r2) -> length l1 = length l2 -> Forall2 mir l1 l2 /\ mir s1 s2 /\ Forall2 mir r1 r2.
Proof.
  induction l1 as [|x l1 IH]; intros s1 r1 [|y l2] s2 r2 F L; try discriminate L; cbn [app] in F; inversion F; subst.
  - repeat split; assumption || constructor.
  - destruct (IH _ _ _ _ _ H4) as (A & B & C); [cbn in L; lia|]. repeat split; try assumption. constructor; assumption.
Qed.
Lemma mir_join : forall l1 s1 r1 n1 l2 s2 r2 n2, Forall2 mir l1 l2 -> mir s1 s2 -> Forall2 mir r1 r2 -> Forall2 mir n1 n2 -> Forall2 mir (l1 ++ s1 :: r1 ++ n1) (l2 ++ s2 :: r2 ++ n2).
Proof. intros. apply Forall2_app; [assumption|]. constructor; [assumption|]. apply Forall2_app; assumption. Qed.
(** What holds a sink call on one side is not clean on the other. *)
Lemma mir_holds : forall s1 s2, mir s1 s2 -> forallb clean s2 = true -> forallb (fun it => negb (holds it)) s1 = true.
Proof.
  induction 1 as [|it s1 s2 M IH|s1 s2 M IH|n s1 s2 M IH|x s1 s2 L M IH|x s1 s2 L M IH]; intro C; cbn [forallb] in C |- *; try (rewrite IH by exact C; reflexivity).
  - reflexivity.
  - apply andb_true_iff in C. destruct C as [C1 C2]. rewrite (IH C2), andb_true_r. destruct it as [| |c|c|on e| | | | | | |]; try reflexivity; [destruct c; discriminate C1 || reflexivity|destruct e; discriminate C1 || reflexivity].
  - rewrite (IH C), andb_true_r. destruct L as [->|[->|[n ->]]]; reflexivity.
  - apply andb_true_iff in C. exact (IH (proj2 C)).
Qed.
Lemma mirs_hold : forall t1 t2, Forall2 mir t1 t2 -> forallb (forallb clean) t2 = true -> idle t1 = true.
Proof. unfold idle. induction 1 as [|x y t1 t2 M F IH]; intro C; [reflexivity|]. cbn [forallb] in *. apply andb_true_iff in C. destruct C as [C1 C2]. rewrite (mir_holds _ _ M C1), (IH C2). reflexivity. Qed.

(** ** Steps of the shared object *)
Definition rovs (tr : list revent) : list (fevent pay bytes) := flat_map (fun e => match e with ROV v => [v] | _ => [] end) tr.
Lemma rovs_app : forall a b, rovs (a ++ b) = rovs a ++ rovs b.
Proof. intros. apply flat_map_app. Qed.
Lemma rovs_ROV : forall evs, rovs (map ROV evs) = evs.
Proof. induction evs as [|e l IH]; [reflexivity|]. cbn [map rovs flat_map app]. f_equal. exact IH. Qed.
Definition lifted (it : fitem pay bytes) : bool := match it with FDo FSubscribe | FEmit true _ => false | _ => true end.
Definition calm1 (it : fitem pay bytes) : bool := match it with FDo c => negb (disturbs c) | FEmit _ (VCall _) => false | _ => true end.
Definition calm (it : pitem) : bool := match it with PI i => calm1 i | _ => true end.
Lemma calm_PI : forall its, forallb calm (map PI its) = forallb calm1 its.
Proof. induction its as [|x l IH]; [reflexivity|]. cbn [map forallb]. rewrite IH. reflexivity. Qed.
Lemma calm_PIs : forall new, forallb (forallb calm) (map (map PI) new) = forallb (forallb calm1) new.
Proof. induction new as [|x l IH]; [reflexivity|]. cbn [map forallb]. rewrite IH, calm_PI. reflexivity. Qed.
Lemma fstep_calm : forall s g st it st' its new evs, fstep s g st it = Some (st', its, new, evs) -> calm1 it = true ->
  forallb calm1 its = true /\ forallb (forallb calm1) new = true /\ existsb disturbs (fcalls evs) = false.
Proof.
  intros s g st it st' its new evs X C. destruct it as [|n|c|c|on e| | |n|n|n|sg|sg]; cbn [fstep] in X; try discriminate X.
  - destruct c; try discriminate C; repeat match type of X with context [if ?b then _ else _] => destruct b end; try discriminate X; injection X as <- <- <- <-; repeat split.
  - destruct c; try discriminate X; injection X as <- <- <- <-; repeat split. destruct (0 <? f_n st)%Z; reflexivity.
  - destruct on; [destruct e|]; try discriminate C; injection X as <- <- <- <-; repeat split.
  - injection X as <- <- <- <-. repeat split. destruct (f_n st =? 0)%Z; reflexivity.
  - injection X as <- <- <- <-; repeat split. destruct (k_norequest g); [reflexivity|]. destruct (k_request g); reflexivity.
  - injection X as <- <- <- <-. repeat split. destruct (f_req st); reflexivity.
  - destruct s; injection X as <- <- <- <-; repeat split.
  - destruct (f_req st); [|discriminate X]. injection X as <- <- <- <-; repeat split.
  - injection X as <- <- <- <-; repeat split.
  - injection X as <- <- <- <-. repeat split. induction (f_cbs st); [reflexivity|assumption].
Qed.
Lemma fstep_quiet : forall s g st it st' its new evs sid, lifted it = true -> fstep s g st it = Some (st', its, new, evs) -> frames_of sid evs = [].
Proof.
  intros s g st it st' its new evs sid L X. destruct it as [|n|c|c|on e| | |n|n|n|sg|sg]; cbn [fstep] in X; try discriminate X.
  - destruct c; try discriminate L; repeat match type of X with context [if ?b then _ else _] => destruct b end; try discriminate X; injection X as <- <- <- <-; reflexivity.
  - destruct c; try discriminate X; injection X as <- <- <- <-; reflexivity.
  - destruct on; [discriminate L|]; injection X as <- <- <- <-; reflexivity.
  - injection X as <- <- <- <-; reflexivity.
  - injection X as <- <- <- <-; reflexivity.
  - injection X as <- <- <- <-; reflexivity.
  - destruct s; injection X as <- <- <- <-; reflexivity.
  - destruct (f_req st); [|discriminate X]. injection X as <- <- <- <-; reflexivity.
  - injection X as <- <- <- <-; reflexivity.
  - injection X as <- <- <- <-; reflexivity.
Qed.
Lemma lift_r : forall s gin sid ini st it, lifted it = true -> rstep s gin sid ini st (RO it) =
  match fstep s resp_cfg (r_out st) it with Some (fl, its, new, evs) => Some (mkR fl (r_in st) (r_sub st), map RO its, map (map RO) new, map ROV evs) | None => None end.
Proof. intros s gin sid ini st it L. destruct it as [|n|c|c|on e| | |n|n|n|sg|sg]; try reflexivity. destruct on; [discriminate L|reflexivity]. Qed.
Lemma lift_p : forall s g r hi st it, lifted it = true -> pstep s g r hi st (PI it) =
  match fstep s g (p_fl st) it with Some (fl, its, new, evs) => Some (mkP fl (p_first st) (p_complete st), map PI its, map (map PI) new, map PV evs) | None => None end.
Proof. intros s g r hi st it L. destruct it as [|n|c|c|on e| | |n|n|n|sg|sg]; try reflexivity; [destruct c; try discriminate L; reflexivity|destruct on; [discriminate L|reflexivity]]. Qed.

(** Credit on its way from the calls of Request to the source. *)
Definition wt (it : fitem pay bytes) : N := match it with FDo (FRequest n) | FReq n | FDoReq n | FRunSrc n | FEmit _ (VReqSrc n) => Z.to_N n | _ => 0 end.
Definition wt2 (it : pitem) : N := match it with PI i => wt i | _ => 0 end.
Definition wt1 (ini : N) (it : ritem) : N := match it with RStart | RAfter => ini | _ => 0 end.
Definition nn1 (it : fitem pay bytes) : bool :=
  match it with FDo (FRequest n) | FReq n | FDoReq n | FRunSrc n | FEmit _ (VReqSrc n) => (0 <=? n)%Z | FDo (FOnSubscribe r _) | FCommit (FOnSubscribe r _) => r | _ => true end.
Definition nn (it : pitem) : bool := match it with PI i => nn1 i | _ => true end.
Definition os1 (it : fitem pay bytes) : N := match it with FDo (FOnSubscribe _ _) | FCommit (FOnSubscribe _ _) => 1 | _ => 0 end.
Definition os2 (it : pitem) : N := match it with PI i => os1 i | _ => 0 end.
Definition once (st : flst) : N := (if f_req st then 1 else 0) + (if f_sub st then 0 else 1).
Definition pot (st : flst) : N := if f_req st then 0 else Z.to_N (f_n st).
Lemma u32z_le : forall n, (0 <= n)%Z -> u32z n <= Z.to_N n.
Proof. intros n N. unfold u32z. apply Z2N.inj_le; [apply Z.mod_pos_bound; reflexivity|exact N|]. apply Z.mod_le; [exact N|reflexivity]. Qed.
Ltac sums := rewrite ?nsum_cons, ?nsum_app, ?nsum_cons, ?nsum_nil; cbn [wt2 wt wt1 os2 os1 fc psent net_requests flat_map app p_fl]; rewrite ?nsum_cons, ?nsum_nil; unfold idn.
Lemma psent_PV : forall ev, psent (map PV ev) = [].
Proof. induction ev; [reflexivity|assumption]. Qed.
Lemma net_ROV : forall ev, net_requests (map ROV ev) = [].
Proof. induction ev; [reflexivity|assumption]. Qed.
Lemma nsum_map : forall {A B} (f : B -> N) (h : A -> B) l, nsum f (map h l) = nsum (fun x => f (h x)) l.
Proof. intros A B f h. induction l as [|x l IH]; [reflexivity|]. cbn [map]. rewrite !nsum_cons, IH. reflexivity. Qed.
Lemma wt_PI : forall its, nsum wt2 (map PI its) = nsum wt its.
Proof. intro its. exact (nsum_map wt2 PI its). Qed.
Lemma os_PI : forall its, nsum os2 (map PI its) = nsum os1 its.
Proof. intro its. exact (nsum_map os2 PI its). Qed.
Lemma wt_PIs : forall new, nsum (nsum wt2) (map (map PI) new) = nsum (nsum wt) new.
Proof. induction new as [|x l IH]; [reflexivity|]. cbn [map]. rewrite !nsum_cons, IH, wt_PI. reflexivity. Qed.
Lemma os_PIs : forall new, nsum (nsum os2) (map (map PI) new) = nsum (nsum os1) new.
Proof. induction new as [|x l IH]; [reflexivity|]. cbn [map]. rewrite !nsum_cons, IH, os_PI. reflexivity. Qed.
Lemma nn_PI : forall its, forallb nn (map PI its) = forallb nn1 its.
Proof. induction its as [|x l IH]; [reflexivity|]. cbn [map forallb]. rewrite IH. reflexivity. Qed.
Lemma nn_PIs : forall new, forallb (forallb nn) (map (map PI) new) = forallb (forallb nn1) new.
Proof. induction new as [|x l IH]; [reflexivity|]. cbn [map forallb]. rewrite IH, nn_PI. reflexivity. Qed.
Lemma wt1_RO : forall ini its, nsum (wt1 ini) (map RO its) = 0.
Proof. intro ini. induction its as [|x l IH]; [reflexivity|]. cbn [map]. rewrite nsum_cons, IH. reflexivity. Qed.
Lemma wt1_ROs : forall ini new, nsum (nsum (wt1 ini)) (map (map RO) new) = 0.
Proof. intro ini. induction new as [|x l IH]; [reflexivity|]. cbn [map]. rewrite nsum_cons, IH, wt1_RO. reflexivity. Qed.
Lemma notes_free : forall l s, nsum wt (map (fun k => FEmit true (VNotify k s)) l) = 0 /\ nsum os1 (map (fun k => FEmit true (VNotify k s)) l) = 0 /\ forallb nn1 (map (fun k => FEmit true (VNotify k s)) l) = true.
Proof. induction l as [|x l IH]; intro s; [repeat split|]. cbn [map forallb nn1]. rewrite !nsum_cons. destruct (IH s) as (-> & -> & ->). repeat split. Qed.
Ltac leaf := cbn [forallb nn1 andb]; rewrite ?nsum_cons, ?nsum_nil; cbn [wt os1]; unfold pot, once; cbn [f_req f_sub f_n set_cbs set_closed set_n set_signal]; split; [try lia|split; [try reflexivity|split; [try reflexivity|try lia]]].
Lemma fstep_credit : forall s st it st' its new evs, fstep s resp_cfg st it = Some (st', its, new, evs) -> lifted it = true -> nn1 it = true -> os1 it + once st <= 1 ->
  nsum wt its + nsum (nsum wt) new + pot st' <= wt it + pot st /\ forallb nn1 its = true /\ forallb (forallb nn1) new = true /\ nsum os1 its + nsum (nsum os1) new + once st' <= os1 it + once st.
Proof.
  intros s st it st' its new evs X L Nn On. destruct it as [|n|c|c|on e| | |n|n|n|sg|sg]; cbn [fstep] in X; try discriminate X.
  - destruct c; try discriminate L; repeat match type of X with context [if ?b then _ else _] => destruct b eqn:? end; try discriminate X; injection X as <- <- <- <-; leaf; try exact Nn.
    + cbn [nn1] in Nn. rewrite Nn. reflexivity.
    + cbn [nn1] in Nn. rewrite Nn. reflexivity.
  - destruct c; try discriminate X; injection X as <- <- <- <-; try (leaf; destruct (f_req st); lia).
    cbn [nn1] in Nn. match type of Nn with ?b = true => subst b end. cbn [os1] in On. unfold once in On. destruct (f_req st) eqn:Fr; [lia|]. destruct (0 <? f_n st)%Z eqn:Fn; leaf; rewrite ?Fr; try lia.
  - destruct on; [discriminate L|]. injection X as <- <- <- <-. leaf.
  - injection X as <- <- <- <-. destruct (f_n st =? 0)%Z; leaf.
  - injection X as <- <- <- <-. cbn [resp_cfg k_norequest]. leaf.
  - injection X as <- <- <- <-. cbn [nn1] in Nn. apply Z.leb_le in Nn. destruct (f_req st) eqn:Fr; leaf; rewrite ?Fr; try lia.
  - destruct s; injection X as <- <- <- <-; leaf; cbn [nn1] in Nn; rewrite Nn; reflexivity.
  - destruct (f_req st); [|discriminate X]. injection X as <- <- <- <-. leaf. cbn [nn1] in Nn. rewrite Nn. reflexivity.
  - injection X as <- <- <- <-. leaf.
  - injection X as <- <- <- <-. destruct (notes_free (f_cbs st) sg) as (A & B & C). rewrite A, B, C. leaf.
Qed.

(** ** The frames the second stream brings can be sent on the first *)
Section Sendable.
Context {H : Type}.
Context (wr : site) (sp : bool) (g : fcfg) (sid : N) (data md : bytes) (Sid : sid < 2^31) (K : option H).
Lemma good_fx : forall f n, good sid f -> In n (fx f) -> sendable_call (fc n).
Proof.
  intros f n (R & L & _) I. unfold fx in I. apply in_flat_map in I. destruct I as (x & X & I). destruct f as [i|i z|i c e|p|r]; cbn [asks] in X.
  - destruct X as [<-|[]]. destruct I as [<-|[]]. exact Logic.I.
  - destruct X as [<-|[]]. destruct I.
  - destruct X as [<-|[<-|[]]]; destruct I as [<-|[]]; [|exact Logic.I]. cbn [frame_in_range fc sendable_call] in *. apply R.
  - apply in_app_iff in X. destruct X as [X|X].
    + destruct (pf_next p); [|destruct X]. destruct X as [<-|[]]. destruct I as [<-|[]]. cbn [frame_in_range frame_metadata fc sendable_call] in *. split; [exact L|]. apply R.
    + destruct (pf_complete p); [|destruct X]. destruct X as [<-|[]]. destruct I as [<-|[]]. exact Logic.I.
  - destruct X.
Qed.
Lemma effects_in : forall n l, In n (effects l) -> exists f, In f l /\ In n (fx f).
Proof.
  induction l as [|f l IH]; intro I; [destruct I|]. cbn [effects] in I. apply in_app_iff in I. destruct I as [I|I]; [exists f; split; [left; reflexivity|exact I]|].
  destruct (ends_stream f); [destruct I|]. destruct (IH I) as (f' & A & B). exists f'. split; [right; exact A|exact B].
Qed.
Lemma net_sendable : forall c n t us, sys wr sp g sid data md K c -> c_pths c = (PNetDo n :: t) :: us -> sendable_call (fc n).
Proof.
  intros c n t us (up & dn & gone & _ & _ & []) E. destruct i_disp as (cs & rem & _ & D & _). rewrite E in D. cbn [head_nets] in D.
  assert (I : In n (effects gone)) by (rewrite <- D; apply in_or_app; right; left; reflexivity). apply effects_in in I. destruct I as (f & If & In'). apply (good_fx f); [|exact In'].
  destruct K.
  - destruct i_rno as (_ & _ & _ & An & Sc). assert (S := s_answer _ _ _ _ i_rser). assert (Go := answer_good sid Sid (out_calls (c_rtr c)) Sc). rewrite S, <- An, <- i_link, <- !app_assoc in Go. apply Forall_app in Go. destruct Go as [Go _]. rewrite Forall_forall in Go. apply Go. exact If.
  - rewrite Forall_forall in i_link. rewrite <- (i_link f) by (apply in_or_app; left; exact If). apply refusal_good. exact Sid.
Qed.
End Sendable.

(** ** Both streams *)
Section Duo.
Context {G : Type}.
Context (m : mesh) (exported : nat -> ikind -> list (option G)) (shost sguest : bool) (a : nat) (d : destination) (g : fcfg) (sid1 sid2 : N) (data md md2 : bytes).
Notation H := (destination + G)%type.
Notation conf := (StreamModel.conf H).
Notation guests := (fun i => RelayModel.relay_tbl m exported i StreamIdModel.Client).
Notation hosts := (fun i => RelayModel.relay_tbl m exported i StreamIdModel.Server).
Notation reach1 := (sreach Guest Host (RelayModel.relay_tbl m exported a StreamIdModel.Client) (RelayModel.relay_tbl m exported a StreamIdModel.Server) sguest shost g sid1 data md).
Notation reach2 := (sreach Host Guest (RelayModel.relay_tbl m exported (d_inst d) StreamIdModel.Server) (RelayModel.relay_tbl m exported (d_inst d) StreamIdModel.Client) shost sguest resp_cfg sid2 data md2).
Notation hop1 := (hop1 m exported shost sguest a g sid1 data md).
Notation hop2 := (hop2 m exported shost sguest d sid2 data md2).
Notation xreach := (xreach m exported shost sguest a d g sid1 sid2 data md md2).
Context (Sid1 : sid1 < 2^31) (Snd1 : CallSpec.sendable data md) (Few1 : few (RelayModel.relay_tbl m exported a StreamIdModel.Server)).
Context (Sid2 : sid2 < 2^31) (Snd2 : CallSpec.sendable data md2) (Few2 : few (RelayModel.relay_tbl m exported (d_inst d) StreamIdModel.Client)).

(** The credit sent on by host A is credit that arrived there. *)
Record cred (c1 c2 : conf) : Prop := {
  k_le : nsum credit (psent (c_ptr c2)) + nsum (nsum wt2) (c_pths c2) + pot (p_fl (c_p c2)) + nsum (nsum (wt1 (initial c1))) (c_rths c1) <= nsum run_n (c_runs c1) + nsum idn (net_requests (c_rtr c1));
  k_nn : forallb (forallb nn) (c_pths c2) = true;
  k_once : nsum (nsum os2) (c_pths c2) + once (p_fl (c_p c2)) <= 1 }.
Definition minv (c1 c2 : conf) : Prop := exists dsp T1, c_rths c1 = dsp :: T1 /\ forallb (fun it => negb (holds it)) dsp = true /\ Forall2 mir T1 (c_pths c2) /\
  r_out (c_r c1) = p_fl (c_p c2) /\ rovs (c_rtr c1) = pvs (c_ptr c2) /\ sent_frames (c_rtr c1) = frames_of sid1 (rovs (c_rtr c1)) /\
  forallb (forallb calm) (c_pths c2) = true /\ disturbed (c_ptr c2) = false /\ cred c1 c2.

(** A thread's place. *)
Record at_thread (c1 c2 : conf) dsp l1 s1 r1 l2 s2 r2 : Prop := {
  t_one : c_rths c1 = (dsp :: l1) ++ s1 :: r1; t_d : forallb (fun it => negb (holds it)) dsp = true; t_two : c_pths c2 = l2 ++ s2 :: r2; t_len : length l1 = length l2;
  t_l : Forall2 mir l1 l2; t_s : mir s1 s2; t_r : Forall2 mir r1 r2; t_fl : r_out (c_r c1) = p_fl (c_p c2); t_ev : rovs (c_rtr c1) = pvs (c_ptr c2);
  t_sent : sent_frames (c_rtr c1) = frames_of sid1 (rovs (c_rtr c1)); t_calm : forallb (forallb calm) l2 = true /\ forallb calm s2 = true /\ forallb (forallb calm) r2 = true; t_dist : disturbed (c_ptr c2) = false; t_cred : cred c1 c2 }.
Lemma nth_cut : forall {A} i (l : list A) x, nth_error l i = Some x -> exists p q, l = p ++ x :: q /\ length p = i.
Proof. intros A i l x E. destruct (nth_error_split _ _ E) as (p & q & A1 & A2). exists p, q. auto. Qed.
Lemma find_thread : forall c1 c2 i s1 s2, minv c1 c2 -> nth_error (c_rths c1) (S i) = Some s1 -> nth_error (c_pths c2) i = Some s2 ->
  exists dsp l1 r1 l2 r2, at_thread c1 c2 dsp l1 s1 r1 l2 s2 r2 /\ i = length l2.
Proof.
  intros c1 c2 i s1 s2 (dsp & T1 & E & Dh & F & Fl & Ev & Se & Ca & Di & Cr) N1 N2. rewrite E in N1. cbn [nth_error] in N1. destruct (nth_cut _ _ _ N1) as (l1 & r1 & -> & L1). destruct (nth_cut _ _ _ N2) as (l2 & r2 & E2 & L2).
  rewrite E2 in F, Ca. destruct (mir_split _ _ _ _ _ _ F) as (A & B & C); [congruence|]. rewrite forallb_at in Ca. rewrite !andb_true_iff in Ca. exists dsp, l1, r1, l2, r2. split; [|auto]. constructor; try assumption. congruence.
Qed.
Lemma close : forall c1 c2 dsp l1 s1 r1 l2 s2 r2 c1' c2' s1' n1 s2' n2 e1 e2, at_thread c1 c2 dsp l1 s1 r1 l2 s2 r2 ->
  c_rths c1' = (dsp :: l1) ++ s1' :: r1 ++ n1 -> c_pths c2' = l2 ++ s2' :: r2 ++ n2 -> mir s1' s2' -> Forall2 mir n1 n2 -> r_out (c_r c1') = p_fl (c_p c2') ->
  c_rtr c1' = c_rtr c1 ++ e1 -> c_ptr c2' = c_ptr c2 ++ e2 -> rovs e1 = pvs e2 -> sent_frames e1 = frames_of sid1 (rovs e1) ->
  forallb calm s2' = true -> forallb (forallb calm) n2 = true -> disturbed e2 = false ->
  c_runs c1' = c_runs c1 ->
  nsum credit (psent e2) + (nsum wt2 s2' + nsum (nsum wt2) n2) + pot (p_fl (c_p c2')) + (nsum (wt1 (initial c1)) s1' + nsum (nsum (wt1 (initial c1))) n1) <= nsum wt2 s2 + pot (p_fl (c_p c2)) + nsum (wt1 (initial c1)) s1 + nsum idn (net_requests e1) ->
  forallb nn s2' = true /\ forallb (forallb nn) n2 = true -> nsum os2 s2' + nsum (nsum os2) n2 + once (p_fl (c_p c2')) <= nsum os2 s2 + once (p_fl (c_p c2)) -> minv c1' c2'.
Proof.
  intros c1 c2 dsp l1 s1 r1 l2 s2 r2 c1' c2' s1' n1 s2' n2 e1 e2 [] E1 E2 M N Fl T1 T2 Ev Se Cs Cn Di Ru Kl [Kn1 Kn2] Ko. exists dsp, (l1 ++ s1' :: r1 ++ n1). split; [exact E1|]. split; [exact t_d0|]. split; [rewrite E2; apply mir_join; assumption|]. split; [exact Fl|].
  split; [rewrite T1, T2, rovs_app, pvs_app, t_ev0, Ev; reflexivity|]. split; [rewrite T1, rovs_app, frames_app; unfold sent_frames in *; rewrite flat_map_app, t_sent0, Se; reflexivity|].
  split; [rewrite E2, forallb_at, forallb_app; destruct t_calm0 as (-> & _ & ->); rewrite Cs, Cn; reflexivity|]. split; [rewrite T2, disturbed_app, t_dist0, Di; reflexivity|].
  assert (In : initial c1' = initial c1) by (unfold initial; rewrite Ru; reflexivity). destruct t_cred0 as [A B C]. rewrite t_one0, t_two0 in A. rewrite t_two0 in B, C. rewrite forallb_at, !andb_true_iff in B. destruct B as (B1 & _ & B3).
  constructor.
  - rewrite In, Ru, E1, E2, T1, T2, psent_app, net_requests_app. rewrite ?nsum_app, ?nsum_cons, ?nsum_app in *. lia.
  - rewrite E2, forallb_at, forallb_app, B1, Kn1, B3, Kn2. reflexivity.
  - rewrite E2. rewrite ?nsum_app, ?nsum_cons, ?nsum_app in *. lia.
Qed.
Lemma at_nn : forall c1 c2 dsp l1 s1 r1 l2 s2 r2, at_thread c1 c2 dsp l1 s1 r1 l2 s2 r2 -> forallb nn s2 = true /\ nsum os2 s2 + once (p_fl (c_p c2)) <= 1.
Proof.
  intros c1 c2 dsp l1 s1 r1 l2 s2 r2 []. destruct t_cred0 as [_ B C]. rewrite t_two0 in B, C. rewrite forallb_at, !andb_true_iff in B. split; [apply B|]. rewrite nsum_app, nsum_cons in C. lia.
Qed.
Lemma sys2 : forall c2, reach2 c2 -> exists K, sys Guest shost resp_cfg sid2 data md2 K c2.
Proof.
  intros c2 R. destruct (verdict_ex sid2 md2 Sid2 (RelayModel.relay_tbl m exported (d_inst d) StreamIdModel.Client)) as [K V]. exists K. eapply reach_sys; eassumption.
Qed.
(** A sink call begins: nothing else is under way. *)
Lemma begins_idle : forall c1 c2 dsp l1 it t1 r1 l2 t2 r2, reach2 c2 -> at_thread c1 c2 dsp l1 (RO it :: t1) r1 l2 (PI it :: t2) r2 -> mir t1 t2 -> begins (RO it) = true -> idle (c_rths c1) = true.
Proof.
  intros c1 c2 dsp l1 it t1 r1 l2 t2 r2 R [] M B. destruct (sys2 c2 R) as (K & up & dn & gone & _ & _ & []). destruct i_k as [(dd & us & E & U & S & _)]. rewrite t_two0 in E.
  assert (NC : clean (PI it) = false) by (destruct it as [| |c| | | | | | | | |]; try discriminate B; destruct c; discriminate B || reflexivity).
  destruct l2 as [|x l2]; cbn [app] in E; injection E as <- <-.
  - destruct l1; [|discriminate t_len0]. destruct S as [S|(it' & t & S & _ & Sc)]; [cbn [forallb] in S; rewrite NC in S; discriminate S|]. injection S as <- <-.
    rewrite t_one0. cbn [app]. unfold idle. cbn [forallb]. rewrite t_d0, (mir_holds _ _ M Sc). assert (I := mirs_hold _ _ t_r0 U). unfold idle in I. rewrite I.
    destruct it as [| |c| | | | | | | | |]; try discriminate B. reflexivity.
  - destruct (clean_split _ _ _ U) as (_ & Z & _). cbn [forallb] in Z. rewrite NC in Z. discriminate Z.
Qed.

(** ** Moves of the first stream, with what they are allowed *)
Lemma r1_step : forall c c' l s rest, reach1 c -> c_rths c = l ++ s :: rest -> hop1 c (MRStep (length l)) = Some c' -> (forall it stack, s = it :: stack -> begins it = true -> idle (c_rths c) = true) -> reach1 c' /\
  exists it stack st its new evs, s = it :: stack /\ rstep shost (mkF false false false false false false) sid1 (initial c) (c_r c) it = Some (st, its, new, evs) /\
    c_r c' = st /\ c_rths c' = l ++ (its ++ stack) :: rest ++ new /\ c_rtr c' = c_rtr c ++ evs /\ c_runs c' = c_runs c.
Proof.
  intros c c' l s rest R E X B. split; [|exact (inv_rstep _ _ _ _ _ _ _ _ _ _ _ _ _ _ _ E X)]. refine (s_move _ _ _ _ _ _ _ _ _ _ _ _ _ R _ X). cbn [allowed]. intros it stack N. rewrite E, nth_error_app2, Nat.sub_diag in N by lia. cbn [nth_error] in N. injection N as ->. apply (B _ _ eq_refl).
Qed.
Lemma r1_call : forall c c' l s rest f, reach1 c -> c_rths c = l ++ s :: rest -> sendable_call f -> hop1 c (MRCall (length l) f) = Some c' -> reach1 c' /\
  exists u stack, s = u :: stack /\ is_ruser u = true /\ c_r c' = c_r c /\ c_rths c' = l ++ (RO (FDo f) :: s) :: rest /\ c_rtr c' = c_rtr c /\ c_runs c' = c_runs c.
Proof. intros c c' l s rest f R E S X. split; [|exact (inv_rcall _ _ _ _ _ _ _ _ _ _ _ _ _ _ _ _ E X)]. refine (s_move _ _ _ _ _ _ _ _ _ _ _ _ _ R _ X). exact S. Qed.
Lemma r1_return : forall c c' l s rest, reach1 c -> c_rths c = l ++ s :: rest -> hop1 c (MRReturn (length l)) = Some c' -> reach1 c' /\
  exists u it stack, s = u :: it :: stack /\ is_ruser u = true /\ c_r c' = c_r c /\ c_rths c' = l ++ (it :: stack) :: rest /\ c_rtr c' = c_rtr c /\ c_runs c' = c_runs c.
Proof. intros c c' l s rest R E X. split; [|exact (inv_rreturn _ _ _ _ _ _ _ _ _ _ _ _ _ _ _ E X)]. refine (s_move _ _ _ _ _ _ _ _ _ _ _ _ _ R _ X). exact Logic.I. Qed.
Lemma p2_step : forall c c' l s rest, reach2 c -> c_pths c = l ++ s :: rest -> hop2 c (MPStep (length l)) = Some c' -> reach2 c' /\
  exists it stack st its new evs, s = it :: stack /\ pstep shost resp_cfg (stream_request sid2 data md2) false (c_p c) it = Some (st, its, new, evs) /\
    c_p c' = st /\ c_pths c' = l ++ (its ++ stack) :: rest ++ new /\ c_ptr c' = c_ptr c ++ evs.
Proof. intros c c' l s rest R E X. split; [|exact (inv_pstep _ _ _ _ _ _ _ _ _ _ _ _ _ _ _ E X)]. refine (s_move _ _ _ _ _ _ _ _ _ _ _ _ _ R _ X). exact Logic.I. Qed.
Lemma p2_call : forall c c' l s rest f, reach2 c -> c_pths c = l ++ s :: rest -> hop2 c (MPCall (length l) f) = Some c' -> reach2 c' /\
  exists stack, s = PI FUser :: stack /\ c_p c' = c_p c /\ c_pths c' = l ++ (PI (FDo f) :: s) :: rest /\ c_ptr c' = c_ptr c.
Proof. intros c c' l s rest f R E X. split; [|exact (inv_pcall _ _ _ _ _ _ _ _ _ _ _ _ _ _ _ _ E X)]. refine (s_move _ _ _ _ _ _ _ _ _ _ _ _ _ R _ X). exact Logic.I. Qed.
Lemma p2_return : forall c c' l s rest, reach2 c -> c_pths c = l ++ s :: rest -> hop2 c (MPReturn (length l)) = Some c' -> reach2 c' /\
  exists it stack, s = PI FUser :: it :: stack /\ c_p c' = c_p c /\ c_pths c' = l ++ (it :: stack) :: rest /\ c_ptr c' = c_ptr c.
Proof. intros c c' l s rest R E X. split; [|exact (inv_preturn _ _ _ _ _ _ _ _ _ _ _ _ _ _ _ E X)]. refine (s_move _ _ _ _ _ _ _ _ _ _ _ _ _ R _ X). exact Logic.I. Qed.
Lemma one : forall hop (c c' : conf) mv, steps hop c [mv] = Some c' -> hop c mv = Some c'.
Proof. intros hop c c' mv X. cbn [steps] in X. destruct (hop c mv); [|discriminate X]. exact X. Qed.
Lemma two : forall hop (c c' : conf) mv mv', steps hop c [mv; mv'] = Some c' -> exists c0, hop c mv = Some c0 /\ hop c0 mv' = Some c'.
Proof. intros hop c c' mv mv' X. cbn [steps] in X. destruct (hop c mv) as [c0|]; [|discriminate X]. exists c0. split; [reflexivity|]. destruct (hop c0 mv'); [|discriminate X]. exact X. Qed.

(** The dispatcher of the second stream calls the sink. *)
Lemma thread_net : forall c1 c2 dsp l1 s1 r1 l2 n t2 r2 c1' c2', reach1 c1 -> reach2 c2 -> at_thread c1 c2 dsp l1 s1 r1 l2 (PNetDo n :: t2) r2 ->
  steps hop1 c1 (if f_sub (p_fl (c_p c2)) then [MRCall (S (length l2)) (sink_call n)] else []) = Some c1' -> steps hop2 c2 [MPStep (length l2)] = Some c2' -> reach1 c1' /\ reach2 c2' /\ minv c1' c2'.
Proof.
  intros c1 c2 dsp l1 s1 r1 l2 n t2 r2 c1' c2' R1 R2 T X1 X2. destruct (p2_step _ _ _ _ _ R2 (t_two _ _ _ _ _ _ _ _ _ T) (one _ _ _ _ X2)) as (R2' & it & stack & st & its & new & evs & E & P & Ep & Et & Ev). injection E as <- <-.
  assert (Z : st = c_p c2 /\ new = [] /\ evs = [PNet n] /\ exists x, its = (if f_sub (p_fl (c_p c2)) then [PI (FDo (fc n))] else []) ++ x /\ (x = [] \/ x = [PSetComplete])).
  { destruct n; cbn [pstep] in P; injection P as <- <- <- <-; do 3 (split; [reflexivity|]); [exists []|exists [PSetComplete]|exists []]; rewrite ?app_nil_r; auto. }
  destruct Z as (-> & -> & -> & x & -> & Ex). rewrite app_nil_r in Et. assert (Cx : forallb calm x = true) by (destruct Ex as [->| ->]; reflexivity). assert (Ct : forallb calm t2 = true) by (destruct (t_calm _ _ _ _ _ _ _ _ _ T) as (_ & C & _); exact C).
  assert (M : mir s1 (x ++ t2)). { assert (M := mir_pop2 _ _ _ (t_s _ _ _ _ _ _ _ _ _ T) (or_intror (ex_intro _ n eq_refl))). destruct Ex as [->| ->]; [exact M|]. apply mir_second; [left; reflexivity|exact M]. }
  destruct (f_sub (p_fl (c_p c2))) eqn:Fs.
  - assert (Sc : sendable_call (sink_call n)). { destruct (sys2 c2 R2) as [K Y]. assert (Y' := Y). destruct Y' as (up & dn & gone & _ & _ & []). destruct i_k as [(dd & us & E & U & _)]. rewrite (t_two _ _ _ _ _ _ _ _ _ T) in E.
      destruct l2 as [|y l2]; cbn [app] in E; injection E as <- <-; [|destruct (clean_split _ _ _ U) as (_ & Z & _); discriminate Z]. exact (net_sendable Guest shost resp_cfg sid2 data md2 Sid2 K c2 n _ _ Y (t_two _ _ _ _ _ _ _ _ _ T)). }
    apply one in X1. rewrite <- (t_len _ _ _ _ _ _ _ _ _ T) in X1. destruct (r1_call _ _ (dsp :: l1) s1 r1 _ R1 (t_one _ _ _ _ _ _ _ _ _ T) Sc X1) as (R1' & u & stack & E & U & Er & Eh & El & Ern). split; [exact R1'|]. split; [exact R2'|].
    apply (close _ _ _ _ _ _ _ _ _ c1' c2' (RO (FDo (fc n)) :: s1) [] (PI (FDo (fc n)) :: x ++ t2) [] [] [PNet n] T); rewrite ?app_nil_r; try assumption; try reflexivity.
    + apply mir_both. exact M.
    + constructor.
    + rewrite Er, Ep. exact (t_fl _ _ _ _ _ _ _ _ _ T).
    + cbn [forallb]. rewrite forallb_app, Cx, Ct. destruct n; reflexivity.
    + rewrite Ep. destruct Ex as [->| ->], n; sums; lia.
    + destruct (at_nn _ _ _ _ _ _ _ _ _ T) as [An _]. cbn [forallb nn andb] in An. split; [|reflexivity]. destruct Ex as [->| ->], n; exact An.
    + rewrite Ep. destruct Ex as [->| ->], n; sums; lia.
  - cbn [steps] in X1. injection X1 as <-. split; [exact R1|]. split; [exact R2'|].
    apply (close _ _ _ _ _ _ _ _ _ c1 c2' s1 [] (x ++ t2) [] [] [PNet n] T); rewrite ?app_nil_r; try assumption; try reflexivity.
    + exact (t_one _ _ _ _ _ _ _ _ _ T).
    + constructor.
    + rewrite Ep. exact (t_fl _ _ _ _ _ _ _ _ _ T).
    + rewrite forallb_app, Cx, Ct. reflexivity.
    + rewrite Ep. destruct Ex as [->| ->], n; sums; lia.
    + destruct (at_nn _ _ _ _ _ _ _ _ _ T) as [An _]. cbn [forallb nn andb] in An. split; [|reflexivity]. destruct Ex as [->| ->], n; exact An.
    + rewrite Ep. destruct Ex as [->| ->], n; sums; lia.
Qed.
Lemma thread_complete : forall c1 c2 dsp l1 s1 r1 l2 t2 r2 c2', reach2 c2 -> at_thread c1 c2 dsp l1 s1 r1 l2 (PSetComplete :: t2) r2 -> steps hop2 c2 [MPStep (length l2)] = Some c2' -> reach2 c2' /\ minv c1 c2'.
Proof.
  intros c1 c2 dsp l1 s1 r1 l2 t2 r2 c2' R2 T X2. destruct (p2_step _ _ _ _ _ R2 (t_two _ _ _ _ _ _ _ _ _ T) (one _ _ _ _ X2)) as (R2' & it & stack & st & its & new & evs & E & P & Ep & Et & Ev). injection E as <- <-. cbn [pstep] in P. injection P as <- <- <- <-. rewrite app_nil_r in Et. cbn [app] in Et.
  split; [exact R2'|]. apply (close _ _ _ _ _ _ _ _ _ c1 c2' s1 [] t2 [] [] [PCompleted] T); rewrite ?app_nil_r; try assumption; try reflexivity.
  - exact (t_one _ _ _ _ _ _ _ _ _ T).
  - exact (mir_pop2 _ _ _ (t_s _ _ _ _ _ _ _ _ _ T) (or_introl eq_refl)).
  - constructor.
  - rewrite Ep. exact (t_fl _ _ _ _ _ _ _ _ _ T).
  - destruct (t_calm _ _ _ _ _ _ _ _ _ T) as (_ & C & _). exact C.
  - rewrite Ep. sums. idtac. lia.
  - destruct (at_nn _ _ _ _ _ _ _ _ _ T) as [An _]. split; [exact An|reflexivity].
  - rewrite Ep. sums. idtac. lia.
Qed.
(** Calls of Subscribe and Request. *)
Lemma thread_lone : forall c1 c2 dsp l1 x t1 r1 l2 s2 r2 c1' c2' f, reach1 c1 -> reach2 c2 -> at_thread c1 c2 dsp l1 (x :: t1) r1 l2 s2 r2 ->
  (x = RStart /\ f = FSubscribe \/ x = RAfter /\ f = FRequest (Z.of_N (initial c1)) \/ exists n, x = RNetDo (RNRequest n) /\ f = FRequest (Z.of_N n)) ->
  steps hop1 c1 [MRStep (S (length l2))] = Some c1' -> steps hop2 c2 [MPCall (length l2) f] = Some c2' -> reach1 c1' /\ reach2 c2' /\ minv c1' c2'.
Proof.
  intros c1 c2 dsp l1 x t1 r1 l2 s2 r2 c1' c2' f R1 R2 T K X1 X2. assert (Lx : lone1 x) by (destruct K as [[-> _]|[[-> _]|[n [-> _]]]]; [left|right; left|right; right; exists n]; reflexivity). assert (M := mir_pop1 _ _ _ (t_s _ _ _ _ _ _ _ _ _ T) Lx).
  destruct (p2_call _ _ _ _ _ _ R2 (t_two _ _ _ _ _ _ _ _ _ T) (one _ _ _ _ X2)) as (R2' & stack & E & Ep & Et & Ev). apply one in X1. rewrite <- (t_len _ _ _ _ _ _ _ _ _ T) in X1.
  destruct (r1_step _ _ (dsp :: l1) _ r1 R1 (t_one _ _ _ _ _ _ _ _ _ T) X1) as (R1' & it & st1 & st & its & new & evs & Ei & Rs & Er & Eh & El & Ern).
  { intros it st Ei. injection Ei as <- _. destruct Lx as [->|[->|[n ->]]]; discriminate. }
  injection Ei as <- <-. split; [exact R1'|]. split; [exact R2'|]. destruct (t_calm _ _ _ _ _ _ _ _ _ T) as (_ & Cs & _).
  assert (Z : exists y evs0, its = RO (FDo f) :: y /\ new = [] /\ evs = evs0 /\ rovs evs0 = [] /\ sent_frames evs0 = [] /\ r_out st = r_out (c_r c1) /\ disturbs f = false /\ (y = [] \/ y = [RAfter])).
  { destruct K as [[-> ->]|[[-> ->]|(n & -> & ->)]]; cbn [rstep] in Rs; [| |destruct (r_sub (c_r c1)); [|discriminate Rs]]; injection Rs as <- <- <- <-; eexists _, _; repeat split; auto. }
  destruct Z as (y & evs0 & -> & -> & -> & Z1 & Z2 & Z3 & Z4 & Z5).
  apply (close _ _ _ _ _ _ _ _ _ c1' c2' (RO (FDo f) :: y ++ t1) [] (PI (FDo f) :: s2) [] evs0 [] T); rewrite ?app_nil_r; try assumption; try reflexivity.
  - rewrite app_nil_r in Eh. exact Eh.
  - apply mir_both. destruct Z5 as [->| ->]; [exact M|]. apply mir_first; [right; left; reflexivity|exact M].
  - constructor.
  - rewrite Er, Ep, Z3. exact (t_fl _ _ _ _ _ _ _ _ _ T).
  - rewrite Z1, Z2. reflexivity.
  - cbn [forallb calm calm1]. rewrite Z4. exact Cs.
  - rewrite Ep. destruct K as [[-> ->]|[[-> ->]|(n & -> & ->)]]; cbn [rstep] in Rs; [| |destruct (r_sub (c_r c1)); [|discriminate Rs]]; injection Rs as _ <- <-; sums; lia.
  - destruct (at_nn _ _ _ _ _ _ _ _ _ T) as [An _]. split; [|reflexivity]. cbn [forallb nn]. rewrite An, andb_true_r. destruct K as [[_ ->]|[[_ ->]|(n & _ & ->)]]; [reflexivity| |]; apply Z.leb_le; apply N2Z.is_nonneg.
  - rewrite Ep. destruct K as [[_ ->]|[[_ ->]|(n & _ & ->)]]; sums; lia.
Qed.
(** Steps of flux.go. *)
Lemma thread_lifted : forall c1 c2 dsp l1 it t1 r1 l2 t2 r2 c1' c2', reach1 c1 -> reach2 c2 -> at_thread c1 c2 dsp l1 (RO it :: t1) r1 l2 (PI it :: t2) r2 -> mir t1 t2 -> lifted it = true ->
  steps hop1 c1 [MRStep (S (length l2))] = Some c1' -> steps hop2 c2 [MPStep (length l2)] = Some c2' -> reach1 c1' /\ reach2 c2' /\ minv c1' c2'.
Proof.
  intros c1 c2 dsp l1 it t1 r1 l2 t2 r2 c1' c2' R1 R2 T M L X1 X2.
  destruct (p2_step _ _ _ _ _ R2 (t_two _ _ _ _ _ _ _ _ _ T) (one _ _ _ _ X2)) as (R2' & it' & stack & st & its & new & evs & E & P & Ep & Et & Ev). injection E as <- <-. apply one in X1. rewrite <- (t_len _ _ _ _ _ _ _ _ _ T) in X1.
  destruct (r1_step _ _ (dsp :: l1) _ r1 R1 (t_one _ _ _ _ _ _ _ _ _ T) X1) as (R1' & it' & stack & st' & its' & new' & evs' & E & P' & Er & Eh & El & Ern).
  { intros it' stack E B. injection E as <- _. exact (begins_idle _ _ _ _ _ _ _ _ _ _ R2 T M B). }
  injection E as <- <-. rewrite (lift_r _ _ _ _ _ _ L), (t_fl _ _ _ _ _ _ _ _ _ T) in P'. rewrite (lift_p _ _ _ _ _ _ L) in P. destruct (fstep shost resp_cfg (p_fl (c_p c2)) it) as [[[[fl is] nw] ev]|] eqn:F; [|discriminate P].
  injection P as <- <- <- <-. injection P' as <- <- <- <-. split; [exact R1'|]. split; [exact R2'|]. destruct (t_calm _ _ _ _ _ _ _ _ _ T) as (_ & Cs & _). cbn [forallb calm] in Cs. apply andb_true_iff in Cs. destruct Cs as [Ci Ct]. destruct (fstep_calm _ _ _ _ _ _ _ _ F Ci) as (C1 & C2 & C3).
  destruct (at_nn _ _ _ _ _ _ _ _ _ T) as [An Ao]. cbn [forallb nn] in An. apply andb_true_iff in An. destruct An as [Ni Nt]. rewrite nsum_cons in Ao. cbn [os2] in Ao. destruct (fstep_credit _ _ _ _ _ _ _ F L Ni) as (N1 & N2 & N3 & N4); [lia|].
  apply (close _ _ _ _ _ _ _ _ _ c1' c2' (map RO is ++ t1) (map (map RO) nw) (map PI is ++ t2) (map (map PI) nw) (map ROV ev) (map PV ev) T); try assumption.
  - apply mir_items. exact M.
  - apply mir_new.
  - rewrite Er, Ep. reflexivity.
  - rewrite rovs_ROV, pvs_PV. reflexivity.
  - rewrite sent_ROV, rovs_ROV. symmetry. exact (fstep_quiet _ _ _ _ _ _ _ _ _ L F).
  - rewrite forallb_app, calm_PI, C1, Ct. reflexivity.
  - rewrite calm_PIs. exact C2.
  - unfold disturbed. rewrite pvs_PV. exact C3.
  - rewrite Ep, psent_PV, net_ROV. rewrite nsum_app, nsum_app, wt_PI, wt_PIs, wt1_RO, wt1_ROs. cbn [p_fl]. sums. lia.
  - rewrite forallb_app, nn_PI, nn_PIs, N2, N3, Nt. split; reflexivity.
  - rewrite Ep. rewrite nsum_app, os_PI, os_PIs. cbn [p_fl]. sums. lia.
Qed.
(** The processor is subscribed. *)
Lemma thread_subscribe : forall c1 c2 dsp l1 t1 r1 l2 t2 r2 c1' c2', reach1 c1 -> reach2 c2 -> at_thread c1 c2 dsp l1 (RO (FDo FSubscribe) :: t1) r1 l2 (PI (FDo FSubscribe) :: t2) r2 -> mir t1 t2 ->
  steps hop1 c1 [MRStep (S (length l2)); MRCall (S (length l2)) (FOnSubscribe true true)] = Some c1' -> steps hop2 c2 [MPStep (length l2)] = Some c2' -> reach1 c1' /\ reach2 c2' /\ minv c1' c2'.
Proof.
  intros c1 c2 dsp l1 t1 r1 l2 t2 r2 c1' c2' R1 R2 T M X1 X2.
  destruct (p2_step _ _ _ _ _ R2 (t_two _ _ _ _ _ _ _ _ _ T) (one _ _ _ _ X2)) as (R2' & it' & stack & st & its & new & evs & E & P & Ep & Et & Ev). injection E as <- <-. apply two in X1. rewrite <- (t_len _ _ _ _ _ _ _ _ _ T) in X1. destruct X1 as (c0 & X1 & X3).
  destruct (r1_step _ _ (dsp :: l1) _ r1 R1 (t_one _ _ _ _ _ _ _ _ _ T) X1) as (R0 & it' & stack & st' & its' & new' & evs' & E & P' & Er & Eh & El & Ern).
  { intros it' stack E B. injection E as <- _. discriminate B. }
  injection E as <- <-. cbn [rstep pstep fstep] in P, P'. rewrite (t_fl _ _ _ _ _ _ _ _ _ T) in P'. destruct (f_sub (p_fl (c_p c2))) eqn:Fs; [discriminate P|]. injection P as <- <- <- <-. injection P' as <- <- <- <-. cbn [map app] in *. rewrite app_nil_r in Eh, Et.
  destruct (r1_call _ _ (dsp :: l1) _ r1 (FOnSubscribe true true) R0 Eh Logic.I X3) as (R1' & u & stack & E & U & Er' & Eh' & El' & Ern'). split; [exact R1'|]. split; [exact R2'|]. destruct (t_calm _ _ _ _ _ _ _ _ _ T) as (_ & Cs & _). cbn [forallb] in Cs.
  apply (close _ _ _ _ _ _ _ _ _ c1' c2' (RO (FDo (FOnSubscribe true true)) :: RO FUser :: RO FHandle :: t1) [] (PI (FDo (FOnSubscribe true true)) :: PI FHandle :: t2) [] [ROV (VCall FSubscribe)] [PRegister; PV (VCall FSubscribe)] T); rewrite ?app_nil_r; try assumption; try reflexivity.
  - apply mir_both, mir_user, mir_both. exact M.
  - constructor.
  - rewrite Er', Er, Ep. reflexivity.
  - rewrite El', El. reflexivity.
  - rewrite Ern'. exact Ern.
  - rewrite Ep. unfold pot. cbn [p_fl f_req f_n]. sums. destruct (f_req _); lia.
  - destruct (at_nn _ _ _ _ _ _ _ _ _ T) as [An _]. split; [exact An|reflexivity].
  - rewrite Ep. unfold once. cbn [p_fl f_req f_sub]. rewrite Fs. sums. lia.
Qed.
Lemma thread_handle : forall c1 c2 dsp l1 t1 r1 l2 t2 r2 c1', reach1 c1 -> at_thread c1 c2 dsp l1 (RO FUser :: t1) r1 l2 (PI FHandle :: t2) r2 -> steps hop1 c1 [MRReturn (S (length l2))] = Some c1' -> reach1 c1' /\ minv c1' c2.
Proof.
  intros c1 c2 dsp l1 t1 r1 l2 t2 r2 c1' R1 T X1. apply one in X1. rewrite <- (t_len _ _ _ _ _ _ _ _ _ T) in X1. destruct (r1_return _ _ (dsp :: l1) _ r1 R1 (t_one _ _ _ _ _ _ _ _ _ T) X1) as (R1' & u & it & stack & E & U & Er & Eh & El & Ern). injection E as <- ->. split; [exact R1'|].
  apply (close _ _ _ _ _ _ _ _ _ c1' c2 (it :: stack) [] (PI FHandle :: t2) [] [] [] T); rewrite ?app_nil_r; try assumption; try reflexivity.
  - exact (t_two _ _ _ _ _ _ _ _ _ T).
  - apply mir_hidden; [exact (t_s _ _ _ _ _ _ _ _ _ T)|discriminate].
  - constructor.
  - rewrite Er. exact (t_fl _ _ _ _ _ _ _ _ _ T).
  - apply (t_calm _ _ _ _ _ _ _ _ _ T).
  - sums. lia.
  - destruct (at_nn _ _ _ _ _ _ _ _ _ T) as [An _]. split; [exact An|reflexivity].
  - sums. lia.
Qed.
(** Callbacks. *)
Lemma thread_emit : forall c1 c2 dsp l1 e t1 r1 l2 t2 r2 c1' c2', reach1 c1 -> reach2 c2 -> at_thread c1 c2 dsp l1 (RO (FEmit true e) :: t1) r1 l2 (PI (FEmit true e) :: t2) r2 -> mir t1 t2 ->
  (match e with VReqSrc _ | VCancelSrc => False | _ => True end) ->
  steps hop1 c1 [MRStep (S (length l2))] = Some c1' -> steps hop2 c2 [MPStep (length l2); MPReturn (length l2)] = Some c2' -> reach1 c1' /\ reach2 c2' /\ minv c1' c2'.
Proof.
  intros c1 c2 dsp l1 e t1 r1 l2 t2 r2 c1' c2' R1 R2 T M Ne X1 X2. apply two in X2. destruct X2 as (c0 & X2 & X3).
  destruct (p2_step _ _ _ _ _ R2 (t_two _ _ _ _ _ _ _ _ _ T) X2) as (R0 & it' & stack & st & its & new & evs & E & P & Ep & Et & Ev). injection E as <- <-. apply one in X1. rewrite <- (t_len _ _ _ _ _ _ _ _ _ T) in X1.
  destruct (r1_step _ _ (dsp :: l1) _ r1 R1 (t_one _ _ _ _ _ _ _ _ _ T) X1) as (R1' & it' & stack & st' & its' & new' & evs' & E & P' & Er & Eh & El & Ern).
  { intros it' stack E B. injection E as <- _. discriminate B. }
  injection E as <- <-.
  assert (Z : p_fl st = p_fl (c_p c2) /\ its = [PI FUser] /\ new = [] /\ evs = [PV e]) by (destruct e; try contradiction; cbn [pstep fstep] in P; injection P as <- <- <- <-; repeat split). destruct Z as (Z0 & -> & -> & ->).
  rewrite app_nil_r in Et. cbn [app] in Et. destruct (p2_return _ _ _ _ _ R0 Et X3) as (R2' & it & stack & E & Ep' & Et' & Ev'). injection E as ->. split; [exact R1'|]. split; [exact R2'|]. destruct (t_calm _ _ _ _ _ _ _ _ _ T) as (_ & Cs & _). cbn [forallb calm calm1] in Cs. apply andb_true_iff in Cs. destruct Cs as [Ci Ct].
  assert (Y : r_out st' = r_out (c_r c1) /\ new' = [] /\ rovs evs' = [e] /\ sent_frames evs' = frames_of sid1 [e] /\ (its' = [] \/ its' = [RO FUser])).
  { destruct e; try contradiction; cbn [rstep frame_of fstep] in P'; injection P' as <- <- <- <-; repeat split; auto. }
  destruct Y as (Y0 & -> & Y1 & Y2 & Y3).
  apply (close _ _ _ _ _ _ _ _ _ c1' c2' (its' ++ t1) [] (it :: stack) [] evs' [PV e] T); rewrite ?app_nil_r; try assumption; try reflexivity.
  - rewrite app_nil_r in Eh. exact Eh.
  - destruct Y3 as [->| ->]; [exact M|]. apply mir_user. exact M.
  - constructor.
  - rewrite Er, Ep', Ep, Y0, Z0. exact (t_fl _ _ _ _ _ _ _ _ _ T).
  - rewrite Ev', Ev. reflexivity.
  - rewrite Y1. exact Y2.
  - destruct e; reflexivity || discriminate Ci.
  - rewrite Ep', Ep, Z0. assert (Y4 : net_requests evs' = []) by (destruct e; try contradiction; cbn [rstep frame_of fstep] in P'; injection P' as _ _ <-; reflexivity). rewrite Y4.
    destruct e; try contradiction; destruct Y3 as [->| ->]; sums; lia.
  - destruct (at_nn _ _ _ _ _ _ _ _ _ T) as [An _]. cbn [forallb] in An. apply andb_true_iff in An. split; [apply An|reflexivity].
  - rewrite Ep', Ep, Z0. sums. lia.
Qed.
Lemma thread_source : forall c1 c2 dsp l1 e t1 r1 l2 t2 r2 c1' c2', reach1 c1 -> reach2 c2 -> at_thread c1 c2 dsp l1 (RO (FEmit true e) :: t1) r1 l2 (PI (FEmit true e) :: t2) r2 -> mir t1 t2 ->
  (match e with VReqSrc _ | VCancelSrc => True | _ => False end) ->
  steps hop1 c1 (MRStep (S (length l2)) :: match t1 with [] => [] | _ => [MRReturn (S (length l2))] end) = Some c1' -> steps hop2 c2 [MPStep (length l2)] = Some c2' -> reach1 c1' /\ reach2 c2' /\ minv c1' c2'.
Proof.
  intros c1 c2 dsp l1 e t1 r1 l2 t2 r2 c1' c2' R1 R2 T M Ne X1 X2.
  destruct (p2_step _ _ _ _ _ R2 (t_two _ _ _ _ _ _ _ _ _ T) (one _ _ _ _ X2)) as (R2' & it' & stack & st & its & new & evs & E & P & Ep & Et & Ev). injection E as <- <-. rewrite <- (t_len _ _ _ _ _ _ _ _ _ T) in X1.
  destruct (t_calm _ _ _ _ _ _ _ _ _ T) as (_ & Cs & _). cbn [forallb calm calm1] in Cs. apply andb_true_iff in Cs. destruct Cs as [Ci Ct].
  assert (Z : p_fl st = p_fl (c_p c2) /\ its = [] /\ new = [] /\ pvs evs = [e]).
  { destruct e; try contradiction; cbn [pstep] in P; [destruct (p_complete (c_p c2)); [|destruct (p_first (c_p c2))]|]; injection P as <- <- <- <-; repeat split. }
  destruct Z as (Z0 & -> & -> & Z1). rewrite app_nil_r in Et. cbn [app] in Et.
  cbn [steps] in X1. destruct (hop1 c1 (MRStep (S (length l1)))) as [c0|] eqn:X3; [|discriminate X1].
  destruct (r1_step _ _ (dsp :: l1) _ r1 R1 (t_one _ _ _ _ _ _ _ _ _ T) X3) as (R0 & it' & stack & st' & its' & new' & evs' & E & P' & Er & Eh & El & Ern).
  { intros it' stack E B. injection E as <- _. discriminate B. }
  injection E as <- <-.
  assert (Y : r_out st' = r_out (c_r c1) /\ new' = [] /\ rovs evs' = [e] /\ sent_frames evs' = [] /\ frames_of sid1 [e] = [] /\ exists u, its' = [u] /\ (u = RO FUser \/ exists n, u = RO (FSrc n))).
  { destruct e; try contradiction; cbn [rstep frame_of fstep] in P'; injection P' as <- <- <- <-; repeat split; eexists; (split; [reflexivity|]); eauto. }
  destruct Y as (Y0 & -> & Y1 & Y2 & Y3 & u & -> & Yu). rewrite app_nil_r in Eh. cbn [app] in Eh.
  assert (Q : disturbed evs = false) by (unfold disturbed; rewrite Z1; destruct e; contradiction || reflexivity).
  assert (V : reach1 c1' /\ c_r c1' = c_r c0 /\ c_rtr c1' = c_rtr c0 /\ c_runs c1' = c_runs c0 /\ exists t', nsum (wt1 (initial c1)) t' = nsum (wt1 (initial c1)) t1 /\ mir t' t2 /\ c_rths c1' = (dsp :: l1) ++ t' :: r1).
  { destruct t1 as [|z t1].
    - cbn [steps] in X1. injection X1 as <-. split; [exact R0|]. do 3 (split; [reflexivity|]). exists [u]. split; [destruct Yu as [->|[n ->]]; reflexivity|]. split; [|exact Eh]. destruct Yu as [->|[n ->]]; [apply mir_user|apply mir_src]; exact M.
    - cbn [steps] in X1. destruct (hop1 c0 (MRReturn (S (length l1)))) as [c3|] eqn:X4; [|discriminate X1]. injection X1 as <-. destruct (r1_return _ _ (dsp :: l1) _ r1 R0 Eh X4) as (R1' & u' & it & stack & E & U & Er' & Eh' & El' & Ern'). injection E as <- <- <-.
      split; [exact R1'|]. split; [exact Er'|]. split; [exact El'|]. split; [exact Ern'|]. exists (z :: t1). split; [reflexivity|]. split; [exact M|exact Eh']. }
  destruct V as (R1' & V1 & V2 & V5 & t' & V6 & V3 & V4). split; [exact R1'|]. split; [exact R2'|].
  apply (close _ _ _ _ _ _ _ _ _ c1' c2' t' [] t2 [] evs' evs T); rewrite ?app_nil_r; try assumption; try reflexivity.
  - constructor.
  - rewrite V1, Er, Ep, Y0, Z0. exact (t_fl _ _ _ _ _ _ _ _ _ T).
  - rewrite V2. exact El.
  - rewrite Y1, Z1. reflexivity.
  - rewrite Y1, Y2, Y3. reflexivity.
  - rewrite V5. exact Ern.
  - destruct (at_nn _ _ _ _ _ _ _ _ _ T) as [An _]. cbn [forallb nn] in An. apply andb_true_iff in An. destruct An as [An _]. rewrite Ep, Z0. assert (Y4 : net_requests evs' = []) by (destruct e; try contradiction; cbn [rstep frame_of fstep] in P'; injection P' as _ _ <-; reflexivity). rewrite Y4.
    assert (Y5 : nsum credit (psent evs) <= wt (FEmit true e)).
    { destruct e; try contradiction; cbn [nn1] in An; cbn [pstep] in P; [destruct (p_complete (c_p c2)); [|destruct (p_first (c_p c2))]|]; injection P as _ <-; sums; cbn [credit psent flat_map app with_n stream_request rf_initial_n]; sums; try lia; apply Z.leb_le in An; assert (U := u32z_le _ An); lia. }
    sums. rewrite V6. cbn [wt] in Y5. lia.
  - destruct (at_nn _ _ _ _ _ _ _ _ _ T) as [An _]. cbn [forallb] in An. apply andb_true_iff in An. split; [apply An|reflexivity].
  - rewrite Ep, Z0. sums. lia.
Qed.

Lemma thread_ok : forall c1 c2 dsp l1 s1 r1 l2 s2 r2 ms1 ms2 c1' c2', reach1 c1 -> reach2 c2 -> at_thread c1 c2 dsp l1 s1 r1 l2 s2 r2 ->
  thread_moves (f_sub (p_fl (c_p c2))) (initial c1) (length l2) s1 s2 = Some (ms1, ms2) -> steps hop1 c1 ms1 = Some c1' -> steps hop2 c2 ms2 = Some c2' -> reach1 c1' /\ reach2 c2' /\ minv c1' c2'.
Proof.
  intros c1 c2 dsp l1 s1 r1 l2 s2 r2 ms1 ms2 c1' c2' R1 R2 T Th X1 X2.
  destruct s2 as [|[it2|n|] t2].
  - destruct s1 as [|[it1|it1| | |[n|v| |e]] t1]; try discriminate Th.
    + destruct it1 as [|n|[]|c|[] []| | |n|n|n|sg|sg]; discriminate Th.
    + cbn [thread_moves] in Th. injection Th as <- <-. eapply thread_lone; eauto.
    + cbn [thread_moves] in Th. injection Th as <- <-. eapply thread_lone; eauto.
    + cbn [thread_moves] in Th. injection Th as <- <-. eapply thread_lone; eauto.
  - destruct s1 as [|[it1|it1| | |[n|v| |e]] t1]; try discriminate Th.
    + assert (U : it1 = FUser \/ (exists n, it1 = FSrc n) \/ it1 <> FUser /\ forall n, it1 <> FSrc n) by (destruct it1; eauto; right; right; split; repeat intro; discriminate).
      assert (No : forall n, it1 <> FUser -> (it1 = FSrc n) -> False).
      { intros n _ ->. cbn [thread_moves] in Th. injection Th as <- <-. apply one in X1. rewrite <- (t_len _ _ _ _ _ _ _ _ _ T) in X1. destruct (inv_rstep _ _ _ _ _ _ _ _ _ _ _ _ (dsp :: l1) _ r1 (t_one _ _ _ _ _ _ _ _ _ T) X1) as (it & stack & st & its & new & evs & E & P & _). injection E as <- <-. discriminate P. }
      destruct U as [->|[[n ->]|[U1 U2]]]; [|destruct (No n); [discriminate|reflexivity]|].
      * destruct it2 as [|n|c|c|on e| | |n|n|n|sg|sg]; try (exfalso; cbn [thread_moves] in Th; injection Th as <- <-; apply one in X1; rewrite <- (t_len _ _ _ _ _ _ _ _ _ T) in X1; destruct (inv_rstep _ _ _ _ _ _ _ _ _ _ _ _ (dsp :: l1) _ r1 (t_one _ _ _ _ _ _ _ _ _ T) X1) as (it & stack & st & its & new & evs & E & P & _); injection E as <- <-; discriminate P).
        cbn [thread_moves] in Th. injection Th as <- <-. cbn [steps] in X2. injection X2 as <-. destruct (thread_handle _ _ _ _ _ _ _ _ _ _ R1 T X1) as [A B]. auto.
      * destruct (mir_same _ _ _ _ (t_s _ _ _ _ _ _ _ _ _ T) U2 U1) as [<- M].
        destruct (lifted it1) eqn:L.
        -- assert (Q : ms1 = [MRStep (S (length l2))] /\ ms2 = [MPStep (length l2)]).
           { destruct it1 as [|n|c|c|[] e| | |n|n|n|sg|sg]; try discriminate L; try (destruct (U1 eq_refl)); try (destruct (U2 _ eq_refl)); try (cbn [thread_moves] in Th; injection Th as <- <-; split; reflexivity); destruct c; try discriminate L; cbn [thread_moves] in Th; injection Th as <- <-; split; reflexivity. }
           destruct Q as [-> ->]. eapply thread_lifted; eassumption.
        -- destruct it1 as [|n|c|c|[] e| | |n|n|n|sg|sg]; try discriminate L.
           ++ destruct c; try discriminate L. cbn [thread_moves] in Th. injection Th as <- <-. eapply thread_subscribe; eassumption.
           ++ destruct e; cbn [thread_moves] in Th; injection Th as <- <-; first [eapply thread_emit; try eassumption; exact Logic.I|eapply thread_source; try eassumption; exact Logic.I].
    + cbn [thread_moves] in Th. injection Th as <- <-. eapply thread_lone; eauto.
    + cbn [thread_moves] in Th. injection Th as <- <-. eapply thread_lone; eauto.
    + cbn [thread_moves] in Th. injection Th as <- <-. eapply thread_lone; eauto 6.
  - assert (Q : ms1 = (if f_sub (p_fl (c_p c2)) then [MRCall (S (length l2)) (sink_call n)] else []) /\ ms2 = [MPStep (length l2)]).
    { destruct s1 as [|[[|? |[]|[]|[] []| | |? |? |? |? |?]|? | | |[]] ?]; cbn [thread_moves] in Th; injection Th as <- <-; split; reflexivity. }
    destruct Q as [-> ->]. eapply thread_net; eassumption.
  - assert (Q : ms1 = [] /\ ms2 = [MPStep (length l2)]).
    { destruct s1 as [|[[|? |[]|[]|[] []| | |? |? |? |? |?]|? | | |[]] ?]; cbn [thread_moves] in Th; injection Th as <- <-; split; reflexivity. }
    destruct Q as [-> ->]. cbn [steps] in X1. injection X1 as <-. destruct (thread_complete _ _ _ _ _ _ _ _ _ _ R2 T X2) as [A B]. auto.
Qed.

Lemma minv_init : forall n k j, minv (stream_create n (S k)) (stream_create k j).
Proof.
  intros n k j. exists [RO FUser], (repeat [RO FUser] (S k)). split; [reflexivity|]. split; [reflexivity|]. split.
  - cbn [stream_create c_pths]. induction (S k); constructor; [|assumption]. apply mir_both. constructor.
  - do 3 (split; [reflexivity|]). cbn [stream_create c_pths]. split; [induction (S k); [reflexivity|assumption]|]. split; [reflexivity|]. constructor; cbn [stream_create c_ptr c_pths c_p c_rths c_runs c_rtr].
    + assert (A : forall q, nsum (nsum wt2) (repeat [PI FUser] q) = 0) by (induction q; [reflexivity|cbn [repeat]; rewrite nsum_cons, IHq; reflexivity]). assert (B : forall i q, nsum (nsum (wt1 i)) (repeat [RO FUser] q) = 0) by (induction q; [reflexivity|cbn [repeat]; rewrite nsum_cons, IHq; reflexivity]).
      rewrite A, B. reflexivity.
    + induction (S k); [reflexivity|assumption].
    + assert (A : forall q, nsum (nsum os2) (repeat [PI FUser] q) = 0) by (induction q; [reflexivity|cbn [repeat]; rewrite nsum_cons, IHq; reflexivity]). rewrite A. reflexivity.
Qed.
Lemma early_free : forall i l, forallb (forallb rearly) l = true -> nsum (nsum (wt1 i)) l = 0.
Proof.
  intros i. induction l as [|s l IH]; intro E; [reflexivity|]. cbn [forallb] in E. apply andb_true_iff in E. destruct E as [E1 E2]. rewrite nsum_cons, (IH E2), N.add_0_r. clear - E1. induction s as [|it s IH]; [reflexivity|]. cbn [forallb] in E1. apply andb_true_iff in E1. destruct E1 as [E1 E2]. rewrite nsum_cons, (IH E2).
  destruct it; reflexivity || discriminate E1.
Qed.
(** The handler is run once: before that nothing is under way. *)
Lemma starts_once : forall c c' x, reach1 c -> reach1 c' -> c_runs c' = c_runs c ++ [x] -> c_runs c = [] /\ forall i, nsum (nsum (wt1 i)) (c_rths c) = 0.
Proof.
  intros c c' x R R' E. destruct (verdict_ex sid1 md Sid1 (RelayModel.relay_tbl m exported a StreamIdModel.Server)) as [K V]. assert (Y := reach_sys _ _ _ _ _ _ _ _ _ _ Sid1 Snd1 Few1 K V c R). assert (Y' := reach_sys _ _ _ _ _ _ _ _ _ _ Sid1 Snd1 Few1 K V c' R').
  assert (Z : c_runs c = []).
  { destruct K as [h|].
    - destruct (named_runs Host sguest g sid1 data md Sid1 (Some h) h eq_refl c' Y') as (_ & L & _). rewrite E, app_length in L. cbn [length] in L. destruct (c_runs c); [reflexivity|cbn [length] in L; lia].
    - assert (Q := refused_runs Host sguest g sid1 data md None eq_refl c' Y'). rewrite E in Q. destruct (c_runs c); discriminate Q. }
  split; [exact Z|]. intro i. destruct Y as (up & dn & gone & _ & _ & []). apply early_free. apply i_rq. exact Z.
Qed.
Theorem xreach_minv : forall x, xreach x -> reach1 (x_first x) /\ reach2 (x_second x) /\ minv (x_first x) (x_second x).
Proof.
  intros x R. induction R as [n k j|x mv x' R (R1 & R2 & M) A X]; [split; [apply s_init|]; split; [apply s_init|apply minv_init]|].
  assert (B : forall ms1 ms2, both m exported shost sguest a d g sid1 sid2 data md md2 x ms1 ms2 = Some x' -> steps hop1 (x_first x) ms1 = Some (x_first x') /\ steps hop2 (x_second x) ms2 = Some (x_second x')).
  { intros ms1 ms2 Y. unfold both in Y. destruct (steps _ (x_first x) ms1) as [c1'|]; [|discriminate Y]. destruct (steps _ (x_second x) ms2) as [c2'|]; [|discriminate Y]. injection Y as <-. auto. }
  destruct mv as [mv|mv|j i|i]; cbn [do_x] in X.
  - destruct (first_alone mv) eqn:F; [|discriminate X]. destruct (B _ _ X) as [X1 X2]. apply one in X1. cbn [steps] in X2. injection X2 as X2. rewrite <- X2. split; [refine (s_move _ _ _ _ _ _ _ _ _ _ _ _ _ R1 _ X1); exact A|]. split; [exact R2|].
    destruct (first_side _ _ _ _ _ _ _ _ _ _ _ _ _ F X1) as (E1 & E2 & E4 & E3). destruct M as (dsp & T1 & Er & Dh & M1 & M2 & M3 & M4 & M5 & M6 & [Ka Kb Kc]). unfold minv. rewrite E1, E2.
    assert (Ei : initial (x_first x') = initial (x_first x)) by (unfold initial; rewrite E4; reflexivity).
    destruct E3 as [E3|(y & rest & Ea & E3)]; rewrite E3; [exists dsp, T1; do 8 (split; [assumption|]); constructor; rewrite ?Ei, ?E2, ?E4, ?E3; assumption|]. rewrite Er in Ea. injection Ea as -> ->. exists [RNetDo y; RO FUser], rest. split; [reflexivity|]. split; [reflexivity|]. do 6 (split; [assumption|]).
    constructor; try assumption. rewrite Ei, E2, E4, E3. rewrite Er in Ka. rewrite !nsum_cons in *. exact Ka.
  - destruct (second_alone mv) eqn:F; [|discriminate X]. destruct (B _ _ X) as [X1 X2]. apply one in X2. cbn [steps] in X1. injection X1 as X1. rewrite <- X1. split; [exact R1|]. split; [refine (s_move _ _ _ _ _ _ _ _ _ _ _ _ _ R2 _ X2); exact A|].
    destruct (second_side _ _ _ _ _ _ _ _ _ _ _ _ _ F X2) as (E1 & E2 & E3). destruct M as (dsp & T1 & Er & Dh & M1 & M2 & M3 & M4 & M5 & M6 & Ka). unfold minv. rewrite E1, E2. destruct E3 as [E3|(y & rest & Ea & E3)]; rewrite E3; [exists dsp, T1; do 8 (split; [assumption|]); destruct Ka; constructor; rewrite ?E1, ?E2, ?E3; assumption|].
    assert (Ka' : cred (x_first x) (x_second x')) by (destruct Ka as [Ka Kb Kc]; constructor; rewrite ?E1, ?E2, ?E3; rewrite Ea in Ka, Kb, Kc; rewrite ?nsum_cons in *; assumption). rewrite Ea in M1, M5. exists dsp, T1.
    split; [exact Er|]. split; [exact Dh|]. split; [|auto 10]. inversion M1; subst. constructor; [|assumption]. apply mir_second; [right; eexists; reflexivity|assumption].
  - destruct (nth_error (c_tasks (x_first x)) j) as [t|] eqn:Nt; [|discriminate X].
    assert (Q : exists i', both m exported shost sguest a d g sid1 sid2 data md md2 x [MTask j i'] [] = Some x' /\ match t with TSend _ | TRegister _ _ _ _ => True | _ => exists k s2, i' = S k /\ nth_error (c_rths (x_first x)) i' = Some [RO FUser] /\ nth_error (c_pths (x_second x)) k = Some s2 end).
    { assert (W : match i, nth_error (c_rths (x_first x)) (S i), nth_error (c_pths (x_second x)) i with S _, Some [RO FUser], Some [PI FUser] => both m exported shost sguest a d g sid1 sid2 data md md2 x [MTask j (S i)] [] | _, _, _ => None end = Some x' ->
        exists i', both m exported shost sguest a d g sid1 sid2 data md md2 x [MTask j i'] [] = Some x' /\ exists k s2, i' = S k /\ nth_error (c_rths (x_first x)) i' = Some [RO FUser] /\ nth_error (c_pths (x_second x)) k = Some s2).
      { clear. intro X. destruct i as [|i]; [discriminate X|]. destruct (nth_error (c_rths (x_first x)) (S (S i))) as [[|[[]| | | |] [|]]|] eqn:Na; try discriminate X. destruct (nth_error (c_pths (x_second x)) (S i)) as [[|[[]| |] [|]]|] eqn:Nb; try discriminate X. exists (S (S i)). split; [exact X|]. exists (S i), [PI FUser]. auto. }
      destruct t; [exists 0%nat; auto|exists 0%nat; auto| |]; apply W; destruct i; exact X. }
    destruct Q as (i' & Y & Q). destruct (B _ _ Y) as [X1 X2]. apply one in X1. cbn [steps] in X2. injection X2 as X2. rewrite <- X2. split; [refine (s_move _ _ _ _ _ _ _ _ _ _ _ _ _ R1 _ X1); exact Logic.I|]. split; [exact R2|].
    destruct (task_side _ _ _ _ _ _ _ _ _ _ _ _ _ _ X1) as (E1 & E2 & E3). rewrite Nt in E3.
    assert (R1' : reach1 (x_first x')) by (refine (s_move _ _ _ _ _ _ _ _ _ _ _ _ _ R1 _ X1); exact Logic.I).
    assert (Q' : c_rths (x_first x') = c_rths (x_first x) /\ c_runs (x_first x') = c_runs (x_first x) \/ (exists k s2, i' = S k /\ nth_error (c_rths (x_first x)) i' = Some [RO FUser] /\ nth_error (c_pths (x_second x)) k = Some s2) /\ (forall l s rest, c_rths (x_first x) = l ++ s :: rest -> i' = length l -> exists x0, (x0 = RStart /\ (exists y, c_runs (x_first x') = c_runs (x_first x) ++ [y]) \/ (exists n, x0 = RNetDo (RNRequest n)) /\ c_runs (x_first x') = c_runs (x_first x)) /\ c_rths (x_first x') = l ++ (x0 :: s) :: rest)).
    { destruct t; [left; exact E3|left; exact E3| |]; right; (split; [exact Q|]); destruct E3 as [E3 E4]; intros l s rest El Ei; rewrite (E3 _ _ _ El Ei); eexists; (split; [|reflexivity]); [left|right]; eauto. }
    destruct Q' as [[E E4]|[(k & s2 & -> & Na & Nb) E]].
    + destruct M as (dsp & T1 & Er & Dh & M1 & M2 & M3 & M4 & M5 & M6 & [Ka Kb Kc]). unfold minv. rewrite E1, E2, E. exists dsp, T1. do 8 (split; [assumption|]). constructor; try assumption. unfold initial. rewrite E2, E4, E. exact Ka.
    + destruct (find_thread _ _ _ _ _ M Na Nb) as (dsp & l1 & r1 & l2 & r2 & T & Ek). rewrite Ek in E. rewrite <- (t_len _ _ _ _ _ _ _ _ _ T) in E. destruct (E (dsp :: l1) _ r1 (t_one _ _ _ _ _ _ _ _ _ T) eq_refl) as (y & Ly & Eh).
      destruct Ly as [[-> [ru Er]]|[[n ->] Er]].
      { destruct (starts_once _ _ _ R1 R1' Er) as [Z1 Z2]. destruct T as [T1 T2 T3 T4 T5 T6 T7 T8 T9 T10 T11 T12 [Ka Kb Kc]]. exists dsp, (l1 ++ (RStart :: [RO FUser]) :: r1). split; [exact Eh|]. split; [exact T2|].
        split; [rewrite T3; rewrite <- (app_nil_r r1), <- (app_nil_r r2); apply mir_join; try assumption; [apply mir_first; [left; reflexivity|exact T6]|constructor]|]. rewrite E1, E2. do 3 (split; [assumption|]). split; [rewrite T3, forallb_at; destruct T11 as (-> & -> & ->); reflexivity|]. split; [exact T12|].
        constructor; try assumption. rewrite Z2, Z1 in Ka. rewrite E2, Er, Z1. cbn [app]. rewrite nsum_cons, nsum_nil.
        assert (W : nsum (nsum (wt1 (initial (x_first x')))) (c_rths (x_first x')) = run_n ru).
        { assert (W := Z2 (initial (x_first x'))). rewrite T1 in W. rewrite Eh. rewrite ?nsum_app, ?nsum_cons in *. cbn [wt1]. unfold initial at 3. rewrite Er, Z1. cbn [app]. destruct ru as [[[? ?] ?] ?]. cbn [run_n snd wt1] in *. lia. }
        rewrite W. change (nsum run_n []) with 0 in Ka. lia. }
      apply (close _ _ _ _ _ _ _ _ _ (x_first x') (x_second x) (RNetDo (RNRequest n) :: [RO FUser]) [] s2 [] [] [] T); rewrite ?app_nil_r; try assumption; try reflexivity.
      * exact (t_two _ _ _ _ _ _ _ _ _ T).
      * apply mir_first; [|exact (t_s _ _ _ _ _ _ _ _ _ T)]. right; right; exists n; reflexivity.
      * constructor.
      * rewrite E1. exact (t_fl _ _ _ _ _ _ _ _ _ T).
      * apply (t_calm _ _ _ _ _ _ _ _ _ T).
      * sums. lia.
      * destruct (at_nn _ _ _ _ _ _ _ _ _ T) as [An _]. split; [exact An|reflexivity].
      * sums. lia.
  - destruct (nth_error (c_rths (x_first x)) (S i)) as [s1|] eqn:Na; [|discriminate X]. destruct (nth_error (c_pths (x_second x)) i) as [s2|] eqn:Nb; [|discriminate X]. destruct (thread_moves _ _ i s1 s2) as [[ms1 ms2]|] eqn:Th; [|discriminate X]. destruct (B _ _ X) as [X1 X2].
    destruct (find_thread _ _ _ _ _ M Na Nb) as (dsp & l1 & r1 & l2 & r2 & T & ->). exact (thread_ok _ _ _ _ _ _ _ _ _ _ _ _ _ R1 R2 T Th X1 X2).
Qed.
End Duo.

(** ** From end to end *)
Section Ends.
Context {G : Type}.
Context (m : mesh) (exported : nat -> ikind -> list (option G)) (n : nat) (shost sguest : bool) (a : nat) (d : destination) (g : fcfg) (sid1 sid2 : N) (data md md2 : bytes).
Notation H := (destination + G)%type.
Notation reach1 := (sreach Guest Host (RelayModel.relay_tbl m exported a StreamIdModel.Client) (RelayModel.relay_tbl m exported a StreamIdModel.Server) sguest shost g sid1 data md).
Notation reach2 := (sreach Host Guest (RelayModel.relay_tbl m exported (d_inst d) StreamIdModel.Server) (RelayModel.relay_tbl m exported (d_inst d) StreamIdModel.Client) shost sguest resp_cfg sid2 data md2).
Notation xreach := (xreach m exported shost sguest a d g sid1 sid2 data md md2).
Context (Ok : RelaySpec.mesh_ok m exported n) (Sid1 : sid1 < 2^31) (Sid2 : sid2 < 2^31) (Snd : CallSpec.sendable data md).
Context (Lm : 8 <= len md) (Nd : nth_error (m_tabs m a RS) (N.to_nat (number4 md)) = Some (Some d)) (Rd : redirect d (Some md) = Ret (Some md2)).

Lemma md2_is : d_index d < 2^32 /\ md2 = be 4 (d_index d) ++ skipn 4 md.
Proof.
  destruct (proj2 Ok a RS d (nth_error_In _ _ Nd)) as [_ B]. split; [exact B|]. assert (Q : redirect d (Some md) = Ret (Some (be 4 (d_index d) ++ skipn 4 md))) by (apply MeshProofs.redirect_proof; [lia|exact B]). congruence.
Qed.
Lemma snd2 : CallSpec.sendable data md2.
Proof. destruct md2_is as [B ->]. apply RelayProofs.redirected_sendable; assumption. Qed.
Lemma few_tbl : forall i s, few (RelayModel.relay_tbl m exported i s).
Proof. exact (RelayProofs.tables_few m exported n Ok). Qed.
Lemma both_inv : forall x, xreach x -> reach1 (x_first x) /\ reach2 (x_second x) /\ minv sid1 (x_first x) (x_second x).
Proof. intros x R. eapply xreach_minv; try eassumption; try apply few_tbl. apply snd2. Qed.
Lemma names1 : names (RelayModel.relay_tbl m exported a StreamIdModel.Server) RS md (inl d).
Proof. split; [exact Lm|]. cbn [RelayModel.relay_tbl]. rewrite nth_error_map, Nd. reflexivity. Qed.
Lemma number2 : 8 <= len md2 /\ number4 md2 = d_index d.
Proof.
  destruct md2_is as [B ->]. split; [rewrite len_app, be_len; unfold len in *; rewrite skipn_length; lia|]. apply RelayProofs.number4_be; [exact B|]. apply wf_skipn. apply Snd.
Qed.
Lemma names2 : forall h, nth_error (exported (d_inst d) RS) (N.to_nat (d_index d)) = Some (Some h) -> names (RelayModel.relay_tbl m exported (d_inst d) StreamIdModel.Client) RS md2 (inr h).
Proof. intros h E. destruct number2 as [A B]. split; [exact A|]. rewrite B. cbn [RelayModel.relay_tbl]. rewrite nth_error_map, E. reflexivity. Qed.
Lemma names2_none : (forall h, nth_error (exported (d_inst d) RS) (N.to_nat (d_index d)) <> Some (Some h)) -> forall h, ~ names (RelayModel.relay_tbl m exported (d_inst d) StreamIdModel.Client) RS md2 h.
Proof.
  intros E h [_ N]. destruct number2 as [_ B]. rewrite B in N. cbn [RelayModel.relay_tbl] in N. rewrite nth_error_map in N. destruct (nth_error (exported (d_inst d) RS) (N.to_nat (d_index d))) as [[h'|]|] eqn:Q; try discriminate N. exact (E _ eq_refl).
Qed.
Lemma sys1 : forall c, reach1 c -> sys Host sguest g sid1 data md (Some (inl d)) c.
Proof. intros c R. eapply (reach_sys Guest Host); try eassumption; [apply few_tbl|exact names1]. Qed.

(** What the first stream carries is what the subscriber of the second saw. *)
Lemma first_sent : forall x, xreach x -> sent_frames (c_rtr (x_first x)) = frames_of sid1 (seen (x_second x)).
Proof.
  intros x R. destruct (both_inv x R) as (_ & _ & (dsp & T1 & _ & _ & _ & _ & Ev & Se & _)). rewrite Se, Ev, frames_delivered. reflexivity.
Qed.
Lemma first_seen : forall x, xreach x -> exists y, expected g (map fc (effects (frames_of sid1 (seen (x_second x))))) = seen (x_first x) ++ y.
Proof.
  intros x R. destruct (both_inv x R) as (R1 & _ & _). destruct (sys1 _ R1) as (up & dn & gone & _ & _ & I). destruct (sys_got Host sguest g sid1 data md _ _ _ _ _ I) as [y Y]. destruct I. rewrite first_sent in i_link by exact R. rewrite <- i_link.
  destruct (prefix_effects g gone (ours dn)) as [z Z]. rewrite Z, Y, <- app_assoc. eexists. reflexivity.
Qed.
Lemma first_all : forall x, xreach x -> at_rest (x_first x) -> undisturbed (x_first x) -> seen (x_first x) = expected g (map fc (effects (frames_of sid1 (seen (x_second x))))).
Proof.
  intros x R Re U. destruct (both_inv x R) as (R1 & _ & _). destruct (sys1 _ R1) as (up & dn & gone & _ & Ed & I). rewrite <- (sys_all Host sguest g sid1 data md _ _ _ _ _ I Re U). destruct I. destruct Re as (_ & Dn & _). rewrite Ed in Dn. apply encode_nil in Dn. subst dn.
  cbn [ours flat_map] in i_link. rewrite app_nil_r in i_link. rewrite first_sent in i_link by exact R. rewrite i_link. reflexivity.
Qed.
Lemma frames_expected : forall s l, frames_of s (expected resp_cfg l) = flat_map (owed s) (upto l).
Proof.
  intros s l. unfold expected. induction (upto l) as [|c u IH]; [reflexivity|]. cbn [flat_map]. rewrite frames_app, IH. destruct c; try match goal with v : pay |- _ => destruct v end; reflexivity.
Qed.
Lemma second_calm : forall x, xreach x -> undisturbed (x_second x).
Proof.
  intros x R. destruct (both_inv x R) as (_ & _ & (dsp & T1 & _ & _ & _ & _ & _ & _ & _ & Di & _)). unfold disturbed in Di. change (pvs (c_ptr (x_second x))) with (subscriber (x_second x)) in Di.
  split; intro I; (assert (Q : existsb disturbs (fcalls (subscriber (x_second x))) = true) by (apply existsb_exists; eexists; split; [exact I|reflexivity])); congruence.
Qed.

Section Named.
Context (h : G) (Nh : nth_error (exported (d_inst d) RS) (N.to_nat (d_index d)) = Some (Some h)).
Lemma sys_2 : forall c, reach2 c -> sys Guest shost resp_cfg sid2 data md2 (Some (inr h)) c.
Proof. intros c R. eapply (reach_sys Host Guest); try eassumption; [apply snd2|apply few_tbl|exact (names2 h Nh)]. Qed.
Theorem relay_stream : forall x, xreach x -> exists y, expected g (emitted (x_second x)) = seen (x_first x) ++ y.
Proof.
  intros x R. destruct (first_seen x R) as [y Y]. destruct (both_inv x R) as (_ & R2 & _). destruct (named_stream Guest shost resp_cfg sid2 data md2 _ (inr h) eq_refl _ (sys_2 _ R2)) as [z Z].
  rewrite <- (effects_owed g sid1), <- frames_expected, Z, frames_app. destruct (prefix_effects g (frames_of sid1 (seen (x_second x))) (frames_of sid1 z)) as [w W]. rewrite W, Y, <- app_assoc. eexists. reflexivity.
Qed.
Theorem relay_rest_all : forall x, xreach x -> x_rest x -> undisturbed (x_first x) -> seen (x_first x) = expected g (emitted (x_second x)).
Proof.
  intros x R [Re1 Re2] U. destruct (both_inv x R) as (_ & R2 & _). rewrite (first_all x R Re1 U), (named_rest Guest shost resp_cfg sid2 data md2 _ (inr h) eq_refl _ (sys_2 _ R2) Re2 (second_calm x R)), frames_expected. apply effects_owed.
Qed.
Theorem relay_runs : forall x, xreach x ->
  Forall (fun r => fst r = (inr h, data, md2)) (c_runs (x_second x)) /\ (length (c_runs (x_second x)) <= 1)%nat /\
  Forall (fun r => fst r = (inl d, data, md)) (c_runs (x_first x)) /\ (length (c_runs (x_first x)) <= 1)%nat.
Proof.
  intros x R. destruct (both_inv x R) as (R1 & R2 & _). destruct (named_runs Guest shost resp_cfg sid2 data md2 Sid2 _ (inr h) eq_refl _ (sys_2 _ R2)) as (A & B & _). destruct (named_runs Host sguest g sid1 data md Sid1 _ (inl d) eq_refl _ (sys1 _ R1)) as (C & D & _).
  split; [eapply Forall_impl; [|exact A]; intros r (f & _ & ->); reflexivity|]. split; [exact B|]. split; [eapply Forall_impl; [|exact C]; intros r (f & _ & ->); reflexivity|exact D].
Qed.
End Named.

Theorem relay_refused : (forall h, nth_error (exported (d_inst d) RS) (N.to_nat (d_index d)) <> Some (Some h)) -> forall x, xreach x ->
  let owed := if k_error g then [VError not_found] else [] in
  c_runs (x_second x) = [] /\ (exists y, owed = seen (x_first x) ++ y) /\ (x_rest x -> opened (x_second x) -> undisturbed (x_first x) -> seen (x_first x) = owed).
Proof.
  intros E x R. destruct (both_inv x R) as (_ & R2 & _). assert (S2 : sys Guest shost resp_cfg sid2 data md2 None (x_second x)) by (eapply (reach_sys Host Guest); try eassumption; [apply snd2|apply few_tbl|exact (names2_none E)]).
  destruct (refused_seen Guest shost resp_cfg sid2 data md2 Sid2 None eq_refl _ S2) as [[y Y] Z]. cbn zeta. destruct number2 as [L2 _].
  assert (Ms : (if len md2 <? 8 then invalid_metadata else not_found) = not_found) by (destruct (N.ltb_spec (len md2) 8); [lia|reflexivity]).
  unfold expected in Y, Z. cbn [upto closes flat_map delivers resp_cfg k_error app] in Y, Z. rewrite Ms in Y, Z.
  assert (Q : expected g (map fc (effects (frames_of sid1 [VError not_found]))) = if k_error g then [VError not_found] else []) by (destruct (k_error g) eqn:K; unfold expected; cbn; rewrite ?K; reflexivity).
  split; [eapply refused_runs; [reflexivity|exact S2]|]. split.
  - destruct (first_seen x R) as [w W]. destruct (seen (x_second x)) as [|v l]; [symmetry in W; apply app_eq_nil in W; destruct W as [-> _]; eexists; reflexivity|]. cbn [app] in Y. injection Y as Yv Yl. symmetry in Yl. apply app_eq_nil in Yl. destruct Yl as [-> _]. subst v. rewrite Q in W. eexists. exact W.
  - intros [Re1 Re2] O U. rewrite (first_all x R Re1 U), (Z Re2 O (second_calm x R)). exact Q.
Qed.

Theorem relay_credit : forall x, xreach x -> arrived (x_second x) <= total (c_ptr (x_second x)) /\ total (c_ptr (x_second x)) <= arrived (x_first x) /\ arrived (x_first x) <= total (c_ptr (x_first x)).
Proof.
  intros x R. destruct (both_inv x R) as (R1 & R2 & (dsp & T1 & _ & _ & _ & _ & _ & _ & _ & _ & [Kl _ _])). split; [|split].
  - destruct (verdict_ex sid2 md2 Sid2 (RelayModel.relay_tbl m exported (d_inst d) StreamIdModel.Client)) as [K V]. eapply (sys_credit Guest shost resp_cfg sid2 data md2 Sid2 K). eapply (reach_sys Host Guest); try eassumption; [apply snd2|apply few_tbl].
  - unfold arrived, total. rewrite !fold_nsum. change (frames_sent (c_ptr (x_second x))) with (psent (c_ptr (x_second x))).
    change (flat_map (fun e => match e with RNet (RNRequest n) => [n] | _ => [] end) (c_rtr (x_first x))) with (net_requests (c_rtr (x_first x))). rewrite <- (map_id (net_requests (c_rtr (x_first x)))), fold_nsum. change (fun x : N => x) with idn. change (@snd (H * bytes * bytes) N) with (@run_n H). lia.
  - eapply (sys_credit Host sguest g sid1 data md Sid1). exact (sys1 _ R1).
Qed.
End Ends.
