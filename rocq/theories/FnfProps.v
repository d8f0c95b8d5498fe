(** Fire-and-forget calls between two peers. *)
From Coq Require Import List NArith Bool Lia Permutation.
From Verif Require Import Base FramesModel FramesSpec InvokeModel StreamIdModel DispatchModel DispatchSpec CallModel CallSpec FnfModel FnfSpec FnfProofs.
Import ListNotations.
Open Scope N_scope.

(** At every moment the runs on the other side are some of those owed to the calls made, each at most once, and likewise the refusals received. *)
Theorem C60_at_most_once : forall (H : Type) w (tbl : side -> ikind -> list (option H)), (forall s, few (tbl s)) -> forall st, fnet_reach w tbl st -> forall X,
  (exists more, Permutation (due_runs w tbl X (fp_calls (fn_peer st X))) (fp_runs (fn_peer st (other X)) ++ more))
  /\ (exists more, Permutation (due_refusals w tbl X (fp_calls (fn_peer st X))) (refusals (fp_in (fn_peer st X)) ++ more)).
Proof. intros H w tbl Few. exact (never_more w tbl Few). Qed.
Print Assumptions C60_at_most_once.

(** Once nothing is under way these are all: each call has run the handler it names, once, with its payload, or has been refused, once. *)
Theorem C60_exactly_once : forall (H : Type) w (tbl : side -> ikind -> list (option H)), (forall s, few (tbl s)) -> forall st, fnet_reach w tbl st -> fat_rest st -> forall X,
  Permutation (due_runs w tbl X (fp_calls (fn_peer st X))) (fp_runs (fn_peer st (other X)))
  /\ Permutation (due_refusals w tbl X (fp_calls (fn_peer st X))) (refusals (fp_in (fn_peer st X))).
Proof. intros H w tbl Few. exact (at_rest_all w tbl Few). Qed.
Print Assumptions C60_exactly_once.

(** Nothing panics or blocks: a call can be made, a frame taken and a task run at any time. *)
Theorem C60_enabled : forall (H : Type) w (tbl : side -> ikind -> list (option H)), (forall s, few (tbl s)) -> forall st, fnet_reach w tbl st ->
  (forall s, fn_wire st s <> [] -> do_fmove w tbl st (MFReceive s) <> None)
  /\ (forall s i, (i < length (fp_tasks (fn_peer st s)))%nat -> do_fmove w tbl st (MFTask s i) <> None)
  /\ (forall s d md, fallowed st (MFire s d md) -> do_fmove w tbl st (MFire s d md) <> None).
Proof. intros H w tbl Few. exact (enabled_proof w tbl Few). Qed.
Print Assumptions C60_enabled.
(** The moves that are not calls come to an end. *)
Theorem C60_settles : forall (H : Type) w (tbl : side -> ikind -> list (option H)), (forall s, few (tbl s)) -> forall st mv st', fnet_reach w tbl st -> finner mv = true ->
  do_fmove w tbl st mv = Some st' -> (fwork st' < fwork st)%nat.
Proof. intros H w tbl Few. exact (works_proof w tbl Few). Qed.
Print Assumptions C60_settles.

(** The caller hears of a refusal only as an error of its dispatcher, if it is a Peer: the stream of a fire-and-forget call is never registered by
    its caller.  On the other side the stream of a run stays registered for ever, except in a host. *)
Theorem C60_errors : forall (H : Type) w (tbl : side -> ikind -> list (option H)), (forall s, few (tbl s)) -> forall st, fnet_reach w tbl st -> forall X,
  fp_errors (fn_peer st X) = match w X with Peer => map (fun r => NotFound (fst r)) (refusals (fp_in (fn_peer st X))) | _ => [] end.
Proof. intros H w tbl Few. exact (errors_proof w tbl Few). Qed.
Print Assumptions C60_errors.
Theorem C60_registered : forall (H : Type) w (tbl : side -> ikind -> list (option H)), (forall s, few (tbl s)) -> forall st, fnet_reach w tbl st -> forall X sid,
  N.odd sid = (match X with Client => true | Server => false end) ->
  fget (fn_peer st X) sid = None /\ (fget (fn_peer st (other X)) sid <> None <-> w (other X) <> Host /\ In sid (map fr_sid (fp_runs (fn_peer st (other X))))).
Proof. intros H w tbl Few. exact (registered_proof w tbl Few). Qed.
Print Assumptions C60_registered.

(** Two calls by the client, one by the server; the second and the third name no handler. *)
Fixpoint frun_moves {H} (w : side -> site) (tbl : side -> ikind -> list (option H)) (st : fnet H) (l : list fmove) : option (fnet H) :=
  match l with [] => Some st | m :: l' => match do_fmove w tbl st m with Some st' => frun_moves w tbl st' l' | None => None end end.
Definition ex_tbl (s : side) (k : ikind) : list (option nat) := match s, k with Server, FNF => [None; Some 7%nat] | _, _ => [] end.
Definition ex_w (s : side) : site := match s with Client => Peer | Server => Guest end.
Definition ex_moves : list fmove :=
  [MFire Client [1; 2] [0;0;0;1; 0;0;0;0; 9]; MFire Client [3] [0;0;0;0; 0;0;0;0]; MFire Server [4] [5];
   MFReceive Server; MFReceive Server; MFTask Server 1; MFTask Server 0; MFReceive Client; MFReceive Client; MFTask Client 0; MFReceive Server].
Lemma ex_few : forall s, few (ex_tbl s).
Proof. intros [] []; reflexivity. Qed.
Lemma ex_sendable : forall d md, forallb (fun b => b <? 256) md = true -> len md < 100 -> len d < 100 -> sendable d md.
Proof.
  intros d md W L1 L2. split; [|split].
  - apply Forall_forall. intros x Hx. rewrite forallb_forall in W. apply N.ltb_lt. apply W. exact Hx.
  - change (2^24) with 16777216. lia.
  - unfold fits32. change (2^32) with 4294967296. lia.
Qed.
Lemma moves_reach : forall w tbl st (l : list fmove) st', @fnet_reach nat w tbl st ->
  (forall s d md, In (MFire s d md) l -> sendable d md) -> (forall s, len (fp_calls (fn_peer st s)) + N.of_nat (length l) < 2^62) -> frun_moves w tbl st l = Some st' -> fnet_reach w tbl st'.
Proof.
  intros w tbl st l. revert st. induction l as [|m l IH]; intros st st' R A L D; cbn [frun_moves] in D.
  - injection D as <-. exact R.
  - destruct (do_fmove w tbl st m) as [st1|] eqn:E; [|discriminate D]. apply (IH st1); [| |clear IH D|exact D].
    + apply (fn_move w tbl st m); [exact R| |exact E]. destruct m; cbn [fallowed]; try exact I. split; [apply (A s); left; reflexivity|]. specialize (L s). lia.
    + intros s d md Hin. apply (A s). right. exact Hin.
    + intro s. specialize (L s). cbn [length] in L. assert (K : len (fp_calls (fn_peer st1 s)) <= len (fp_calls (fn_peer st s)) + 1); [|lia]. clear - E.
      assert (P : forall a b f x, fpost a b f = Some x -> fn_peer x = @fn_peer nat a) by (unfold fpost; intros a b f x Hx; destruct (frame_bytes f); [injection Hx as <-; reflexivity|discriminate Hx|discriminate Hx]).
      destruct m as [t d md|t|t i]; cbn [do_fmove] in E.
      * destruct (Next 2 t _) as [[c [sid b]]|]; [|discriminate E]. apply P in E. rewrite E. cbn [fn_peer set_fpeer]. destruct (side_eqb s t) eqn:S; [|unfold len; lia]. destruct s, t; try discriminate S; cbn [fp_calls]; unfold len; rewrite app_length; cbn [length]; lia.
      * destruct (fn_wire st t); [discriminate E|]. destruct (freceived w tbl t _ _); [| |discriminate E]; injection E as <-; cbn [fn_peer set_fpeer set_fwire]; destruct (side_eqb s t) eqn:S; try (unfold len; lia); destruct s, t; try discriminate S; cbn [fp_calls]; unfold len; lia.
      * destruct (cut i _) as [[[a x] b]|]; [|discriminate E].
        assert (Q : forall y st2 s2, fperform st2 t y = Some s2 -> fp_calls (fn_peer s2 s) = fp_calls (@fn_peer nat st2 s)).
        { intros y st2 s2 Hy. destruct y as [f|r|sid|k h sid d md pa n|u c|sid]; cbn [fperform] in Hy; try discriminate Hy.
          - apply P in Hy. rewrite Hy. reflexivity.
          - unfold fregister in Hy. destruct (N.odd sid).
            + destruct (LookupModel.Add _ _ _); [|discriminate Hy]. injection Hy as <-. cbn [fn_peer set_fpeer]. destruct s, t; reflexivity.
            + destruct (LookupModel.Add _ _ _); [|discriminate Hy]. injection Hy as <-. cbn [fn_peer set_fpeer]. destruct s, t; reflexivity.
          - destruct k; try discriminate Hy. injection Hy as <-. cbn [fn_peer set_fpeer]. destruct s, t; reflexivity. }
        assert (Q' : forall y st2 s2, fperform_all st2 t y = Some s2 -> fp_calls (fn_peer s2 s) = fp_calls (@fn_peer nat st2 s)).
        { induction y as [|z y IH]; intros st2 s2 Hy; cbn [fperform_all] in Hy; [injection Hy as <-; reflexivity|]. destruct (fperform st2 t z) eqn:Z; [|discriminate Hy]. rewrite (IH _ _ Hy). exact (Q _ _ _ Z). }
        apply Q' in E. rewrite E. cbn [fn_peer set_fpeer]. destruct s, t; cbn; unfold len; lia.
Qed.
Example C60_ex : exists st, fnet_reach ex_w ex_tbl st /\ fat_rest st /\
  fp_runs (fn_peer st Server) = [mkFRun 7%nat 1 [1; 2] [9]] /\ fp_errors (fn_peer st Client) = [NotFound 3] /\ refusals (fp_in (fn_peer st Client)) = [(3, not_found)]
  /\ refusals (fp_in (fn_peer st Server)) = [(2, invalid_metadata)] /\ fp_errors (fn_peer st Server) = [] /\ fget (fn_peer st Server) 1 <> None.
Proof.
  destruct (frun_moves ex_w ex_tbl fnet_create ex_moves) as [st|] eqn:Q; [|vm_compute in Q; discriminate Q].
  exists st. split.
  - apply (moves_reach _ _ _ ex_moves _ (fn_init _ _)); [| |exact Q].
    + intros s d md Hin. assert (K : forallb (fun m => match m with MFire _ d md => forallb (fun b => b <? 256) md && (len md <? 100) && (len d <? 100) | _ => true end) ex_moves = true) by reflexivity.
      rewrite forallb_forall in K. specialize (K _ Hin). cbv beta iota in K. apply andb_true_iff in K. destruct K as [K K3]. apply andb_true_iff in K. destruct K as [K1 K2]. apply ex_sendable; [exact K1|apply N.ltb_lt; exact K2|apply N.ltb_lt; exact K3].
    + intros []; reflexivity.
  - vm_compute in Q. injection Q as <-. split; [intros []; split; reflexivity|]. repeat split; try reflexivity. discriminate.
Qed.
(** So it is not true that a run handler leaves nothing behind. *)
Theorem C60_leaves_nothing_refuted : ~ (forall st, fnet_reach ex_w ex_tbl st -> fat_rest st -> forall s sid, fget (fn_peer st s) sid = None).
Proof. intro K. destruct C60_ex as (st & R & Q & _ & _ & _ & _ & _ & G). apply G. exact (K st R Q Server 1). Qed.
Print Assumptions C60_leaves_nothing_refuted.
