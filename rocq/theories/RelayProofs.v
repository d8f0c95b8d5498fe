(** Calls through the mesh. *)
From Coq Require Import List NArith ZArith Bool Lia.
From Coq Require Import ZifyBool ZifyNat ZifyN.
From Verif Require Import Base BaseLemmas FramesModel FramesSpec FramesProofs OperationsModel InvokeModel InvokeSpec InvokeProofs LookupModel LookupSpec LookupProofs StreamIdModel StreamIdSpec StreamIdProofs.
From Verif Require Import MonoModel ProxyModel DispatchModel DispatchSpec DispatchProofs MeshModel MeshSpec MeshProofs CallModel CallSpec CallInv CallProofs CallProps RelayModel RelaySpec.
Import ListNotations.
Open Scope N_scope.

(** ** What a move in a net changes *)
Section Steps.
Context {H : Type}.
Context (w : side -> site) (tbl : side -> ikind -> list (option H)).
Notation net := (net H).
Notation peer := (peer H).
Notation run := (run H).

Definition key (c : call) : N * bytes * bytes * bool := (c_sid c, c_data c, c_md c, c_subscribed c).
Lemma upd_keys : forall k f calls, (forall c, key (f c) = key c) -> map key (upd k f calls) = map key calls.
Proof.
  intros k f calls F. unfold upd. destruct (nth_error calls k) as [c|] eqn:E; [|reflexivity].
  revert calls E. induction k as [|k IH]; intros [|a calls] E; try discriminate E; cbn in E |- *; [rewrite F; congruence|]. f_equal. exact (IH _ E).
Qed.
Lemma perform_keeps : forall (p p' : peer) a, perform p a = Some p' -> map key (p_calls p') = map key (p_calls p) /\ p_runs p' = p_runs p.
Proof.
  intros p p' a E.
  assert (SC : forall k f, (forall c, key (f c) = key c) -> map key (p_calls (set_call p k f)) = map key (p_calls p) /\ p_runs (set_call p k f) = p_runs p).
  { intros k f F. destruct (set_call_parts Client p k f) as (_ & A & _ & B & _). rewrite A, B. split; [apply upd_keys; exact F|reflexivity]. }
  assert (RM : forall sid, remove p sid = Some p' -> map key (p_calls p') = map key (p_calls p) /\ p_runs p' = p_runs p).
  { intros sid Q. unfold remove in Q. destruct (N.odd sid); [destruct (Remove (p_odd p) sid)|destruct (Remove (p_even p) sid)]; try discriminate Q; injection Q as <-; split; reflexivity. }
  destruct a as [f|rq|sid0|ik h sid data md parent n|k c|sid]; cbn [perform] in E; try discriminate E.
  - injection E as <-. split; reflexivity.
  - destruct ik; try discriminate E; injection E as <-; split; reflexivity.
  - destruct c; try discriminate E; injection E as <-; try (split; reflexivity); apply SC; intro; reflexivity.
  - exact (RM _ E).
Qed.
Lemma perform_all_keeps : forall l (p p' : peer), perform_all p l = Some p' -> map key (p_calls p') = map key (p_calls p) /\ p_runs p' = p_runs p.
Proof.
  induction l as [|a l IH]; intros p p' E; cbn [perform_all] in E; [injection E as <-; split; reflexivity|].
  destruct (perform p a) as [q|] eqn:Q; [|discriminate E]. destruct (perform_keeps _ _ _ Q) as [A B]. destruct (IH _ _ E) as [C D]. split; congruence.
Qed.
Lemma post_peers : forall (st st' : net) s f, post st s f = Some st' -> n_peer st' = n_peer st.
Proof. intros st st' s f E. unfold post in E. destruct (frame_bytes f); try discriminate E. injection E as <-. reflexivity. Qed.

Definition touched (s : side) (st st' : net) : Prop := n_peer st' (other s) = n_peer st (other s).
Lemma set_peer_same : forall (st : net) s p, n_peer (set_peer st s p) s = p.
Proof. intros. cbn. rewrite eqb_same. reflexivity. Qed.
Lemma set_peer_touched : forall (st : net) s p, touched s st (set_peer st s p).
Proof. intros. unfold touched. cbn. rewrite eqb_other. reflexivity. Qed.

Definition moved (st : net) (mv : move) (st' : net) : Prop :=
  match mv with
  | MCall s d md => touched s st st' /\ n_wire st' = n_wire st /\ p_tasks (n_peer st' s) = p_tasks (n_peer st s) /\ p_runs (n_peer st' s) = p_runs (n_peer st s) /\
      exists sid, p_calls (n_peer st' s) = p_calls (n_peer st s) ++ [mkCall sid d md false new_processor]
  | MSubscribe s k => touched s st st' /\ p_tasks (n_peer st' s) = p_tasks (n_peer st s) /\ p_runs (n_peer st' s) = p_runs (n_peer st s) /\
      (exists bs, n_wire st' (other s) = n_wire st (other s) ++ [bs]) /\ n_wire st' s = n_wire st s /\
      exists c f, nth_error (p_calls (n_peer st s)) k = Some c /\ p_calls (n_peer st' s) = upd k f (p_calls (n_peer st s)) /\ (forall c, key (f c) = (c_sid c, c_data c, c_md c, true))
  | MReceive s => touched s st st' /\ map key (p_calls (n_peer st' s)) = map key (p_calls (n_peer st s)) /\ p_runs (n_peer st' s) = p_runs (n_peer st s)
  | MTask s i => touched s st st' /\ p_calls (n_peer st' s) = p_calls (n_peer st s) /\
      ((exists f, nth_error (p_tasks (n_peer st s)) i = Some (ASend f) /\ p_runs (n_peer st' s) = p_runs (n_peer st s)) \/
       (exists ik h sid d md pa n, nth_error (p_tasks (n_peer st s)) i = Some (ARun ik h sid d md pa n) /\ p_runs (n_peer st' s) = p_runs (n_peer st s) ++ [mkRun h sid d md None]))
  | MConclude s i o => touched s st st' /\ p_calls (n_peer st' s) = p_calls (n_peer st s) /\
      exists l h sid d md q, length l = i /\ p_runs (n_peer st s) = l ++ mkRun h sid d md None :: q /\ p_runs (n_peer st' s) = l ++ mkRun h sid d md (Some o) :: q
  end.
Lemma do_moved : forall st mv st', do_move w tbl st mv = Some st' -> moved st mv st'.
Proof.
  intros st mv st' D. destruct mv as [s d md|s k|s|s i|s i o]; cbn [do_move] in D.
  - destruct (Next 2 s (p_counter (n_peer st s))) as [[counter [sid x]]|]; [|discriminate D]. injection D as <-. cbn [moved]. rewrite set_peer_same. split; [apply set_peer_touched|]. repeat split. exists sid. reflexivity.
  - set (f := fun c : call => mkCall (c_sid c) (c_data c) (c_md c) true (MonoModel.pstep (c_proc c) PSubscribe)) in D. assert (Fk : forall c, key (f c) = (c_sid c, c_data c, c_md c, true)) by reflexivity. clearbody f.
    destruct (nth_error (p_calls (n_peer st s)) k) as [c|] eqn:E; [|discriminate D]. destruct (register (n_peer st s) (c_sid c) k) as [p|] eqn:R; [|discriminate D].
    assert (Pr : p_calls p = p_calls (n_peer st s) /\ p_tasks p = p_tasks (n_peer st s) /\ p_runs p = p_runs (n_peer st s)).
    { unfold register in R. destruct (N.odd (c_sid c)); [destruct (Add (p_odd (n_peer st s)) (c_sid c) k)|destruct (Add (p_even (n_peer st s)) (c_sid c) k)]; try discriminate R; injection R as <-; repeat split. }
    destruct Pr as (P1 & P2 & P3). unfold post in D. destruct (frame_bytes (request_of c)) as [bs| |] eqn:FB; try discriminate D. injection D as <-.
    destruct (set_call_parts Client p k f) as (_ & A & B & C & _).
    cbn [moved]. unfold touched. cbn [n_peer set_wire]. rewrite set_peer_same. split; [apply set_peer_touched|].
    rewrite B, C. split; [exact P2|]. split; [exact P3|]. cbn [n_wire set_wire]. rewrite eqb_same, eqb_other'. cbn [n_wire set_peer].
    split; [exists bs; reflexivity|]. split; [reflexivity|]. exists c, f. split; [exact E|]. rewrite A, P1. split; [reflexivity|exact Fk].
  - destruct (n_wire st s) as [|bs rest]; [discriminate D|]. destruct (received w tbl s (n_peer st s) bs) as [l|e|]; [| |discriminate D].
    + destruct (perform_all (n_peer st s) l) as [p|] eqn:P; [|discriminate D]. injection D as <-. cbn [moved]. unfold touched. cbn [n_peer set_wire]. rewrite set_peer_same. split; [apply set_peer_touched|]. exact (perform_all_keeps _ _ _ P).
    + injection D as <-. cbn [moved]. repeat split.
  - destruct (nth_error (p_tasks (n_peer st s)) i) as [t|] eqn:E; [|unfold cut in D; rewrite E in D; discriminate D]. destruct (cut_some _ _ _ E) as (a & b & C & Et). rewrite C in D. destruct t as [f|rq|sid0|ik h sid d md pa n|k c|sid]; try discriminate D.
    + cbn [moved]. rewrite E. unfold touched. rewrite (post_peers _ _ _ _ D), set_peer_same. split; [apply set_peer_touched|]. split; [reflexivity|]. left. exists f. split; reflexivity.
    + injection D as <-. cbn [moved]. rewrite E, set_peer_same. split; [apply set_peer_touched|]. split; [reflexivity|]. right. exists ik, h, sid, d, md, pa, n. split; reflexivity.
  - destruct (nth_error (p_runs (n_peer st s)) i) as [t|] eqn:E; [|unfold cut in D; rewrite E in D; discriminate D]. destruct (cut_some _ _ _ E) as (a & b & C & Et). rewrite C in D. destruct t as [h sid d md [x|]]; [discriminate D|].
    cbn [moved]. unfold touched. rewrite (post_peers _ _ _ _ D), set_peer_same. split; [apply set_peer_touched|]. split; [reflexivity|]. exists a, h, sid, d, md, b. split; [|split; [exact Et|reflexivity]].
    unfold cut in C. rewrite E in C. injection C as <- _. rewrite firstn_length. assert (L : (i < length (p_runs (n_peer st s)))%nat) by (apply nth_error_Some; congruence). lia.
Qed.

(** What stays. *)
Definition call_kept (c c' : call) : Prop := c_sid c' = c_sid c /\ c_data c' = c_data c /\ c_md c' = c_md c /\ (c_subscribed c = true -> c_subscribed c' = true).
Definition run_kept (r r' : run) : Prop := r_handler r' = r_handler r /\ r_sid r' = r_sid r /\ r_data r' = r_data r /\ r_md r' = r_md r /\ (forall o, r_out r = Some o -> r_out r' = Some o).
Definition kept (st st' : net) : Prop :=
  (forall s k c, nth_error (p_calls (n_peer st s)) k = Some c -> exists c', nth_error (p_calls (n_peer st' s)) k = Some c' /\ call_kept c c') /\
  (forall s j r, nth_error (p_runs (n_peer st s)) j = Some r -> exists r', nth_error (p_runs (n_peer st' s)) j = Some r' /\ run_kept r r').
Lemma call_kept_refl : forall c, call_kept c c.
Proof. intro c. repeat split; auto. Qed.
Lemma run_kept_refl : forall c, run_kept c c.
Proof. intro c. repeat split; auto. Qed.
Lemma kept_refl : forall st, kept st st.
Proof. intro st. split; intros s k c E; exists c; (split; [exact E|]); [apply call_kept_refl|apply run_kept_refl]. Qed.
Lemma kept_trans : forall a b c, kept a b -> kept b c -> kept a c.
Proof.
  intros a b c [A1 A2] [B1 B2]. split; intros s k x E.
  - destruct (A1 _ _ _ E) as (y & Ey & Y1 & Y2 & Y3 & Y4). destruct (B1 _ _ _ Ey) as (z & Ez & Z1 & Z2 & Z3 & Z4). exists z. split; [exact Ez|]. repeat split; try congruence. auto.
  - destruct (A2 _ _ _ E) as (y & Ey & Y1 & Y2 & Y3 & Y4 & Y5). destruct (B2 _ _ _ Ey) as (z & Ez & Z1 & Z2 & Z3 & Z4 & Z5). exists z. split; [exact Ez|]. repeat split; try congruence. auto.
Qed.
Lemma keys_kept : forall l l' : list call, map key l' = map key l -> forall k c, nth_error l k = Some c -> exists c', nth_error l' k = Some c' /\ call_kept c c'.
Proof.
  intros l l' M k c E. assert (Q := f_equal (fun x => nth_error x k) M). cbn beta in Q. rewrite !nth_error_map, E in Q. cbn [option_map] in Q. destruct (nth_error l' k) as [c'|]; [|discriminate Q]. cbn [option_map] in Q. exists c'. split; [reflexivity|].
  unfold key in Q. assert (Q' : (c_sid c', c_data c', c_md c', c_subscribed c') = (c_sid c, c_data c, c_md c, c_subscribed c)) by congruence. injection Q' as Q1 Q2 Q3 Q4. repeat split; try assumption. congruence.
Qed.
Lemma same_kept : forall l : list call, forall k c, nth_error l k = Some c -> exists c', nth_error l k = Some c' /\ call_kept c c'.
Proof. intros l k c E. exists c. split; [exact E|apply call_kept_refl]. Qed.
Lemma same_runs_kept : forall l : list run, forall k c, nth_error l k = Some c -> exists c', nth_error l k = Some c' /\ run_kept c c'.
Proof. intros l k c E. exists c. split; [exact E|apply run_kept_refl]. Qed.
Lemma conclude_nth : forall (l : list run) x y q j r, nth_error (l ++ x :: q) j = Some r -> (j = length l /\ r = x /\ nth_error (l ++ y :: q) j = Some y) \/ (j <> length l /\ nth_error (l ++ y :: q) j = Some r).
Proof.
  intros l x y q j r E. destruct (Nat.eq_dec j (length l)) as [->|N0].
  - left. rewrite nth_error_app2, Nat.sub_diag in E |- * by lia. cbn in E |- *. split; [reflexivity|]. split; [congruence|reflexivity].
  - right. split; [exact N0|]. destruct (Nat.lt_ge_cases j (length l)) as [L|L]; [rewrite nth_error_app1 in E |- * by exact L; exact E|]. rewrite nth_error_app2 in E |- * by exact L. destruct (j - length l)%nat as [|d] eqn:D; [lia|]. exact E.
Qed.
Lemma moved_kept : forall st mv st', moved st mv st' -> kept st st'.
Proof.
  intros st mv st' M. destruct mv as [s d md|s k|s|s i|s i o]; cbn [moved] in M.
  - destruct M as (T & _ & _ & R & sid & C). split; intros s' k c E; destruct (side_cases s s') as [->| ->].
    + exists c. rewrite C. split; [|apply call_kept_refl]. rewrite nth_error_app1; [exact E|]. apply nth_error_Some. congruence.
    + rewrite T. apply same_kept. exact E.
    + rewrite R. apply same_runs_kept. exact E.
    + rewrite T. apply same_runs_kept. exact E.
  - destruct M as (T & _ & R & _ & _ & c0 & f & E0 & C & F). split; intros s' j c E; destruct (side_cases s s') as [->| ->].
    + rewrite C. rewrite CallInv.upd_nth. destruct (Nat.eqb_spec j k) as [->|N0]; [|apply same_kept; exact E]. rewrite E. exists (f c). split; [reflexivity|]. assert (Q := F c). unfold key in Q. injection Q as Q1 Q2 Q3 Q4. repeat split; auto.
    + rewrite T. apply same_kept. exact E.
    + rewrite R. apply same_runs_kept. exact E.
    + rewrite T. apply same_runs_kept. exact E.
  - destruct M as (T & C & R). split; intros s' j c E; destruct (side_cases s s') as [->| ->].
    + exact (keys_kept _ _ C _ _ E).
    + rewrite T. apply same_kept. exact E.
    + rewrite R. apply same_runs_kept. exact E.
    + rewrite T. apply same_runs_kept. exact E.
  - destruct M as (T & C & R). split; intros s' j c E; destruct (side_cases s s') as [->| ->].
    + rewrite C. apply same_kept. exact E.
    + rewrite T. apply same_kept. exact E.
    + destruct R as [(f & _ & R)|(ik & h & sid & d & md & pa & n & _ & R)]; rewrite R; [apply same_runs_kept; exact E|]. exists c. split; [|apply run_kept_refl]. rewrite nth_error_app1; [exact E|]. apply nth_error_Some. congruence.
    + rewrite T. apply same_runs_kept. exact E.
  - destruct M as (T & C & l & h & sid & d & md & q & Ll & R1 & R2). split; intros s' j c E; destruct (side_cases s s') as [->| ->].
    + rewrite C. apply same_kept. exact E.
    + rewrite T. apply same_kept. exact E.
    + rewrite R1 in E. rewrite R2. destruct (conclude_nth l _ (mkRun h sid d md (Some o)) q j c E) as [(_ & -> & ->)|(_ & ->)]; eexists; (split; [reflexivity|]); [repeat split; discriminate|apply run_kept_refl].
    + rewrite T. apply same_runs_kept. exact E.
Qed.

(** Outcomes of runs appear only with [MConclude]. *)
Lemma moved_out : forall st mv st' s j r' o, moved st mv st' -> nth_error (p_runs (n_peer st' s)) j = Some r' -> r_out r' = Some o ->
  mv = MConclude s j o \/ (exists r, nth_error (p_runs (n_peer st s)) j = Some r /\ r_out r = Some o).
Proof.
  intros st mv st' s j r' o M E O. destruct mv as [s0 d md|s0 k|s0|s0 i|s0 i o0]; cbn [moved] in M.
  - destruct M as (T & _ & _ & R & _). right. exists r'. split; [|exact O]. destruct (side_cases s0 s) as [->| ->]; [rewrite R in E; exact E|rewrite T in E; exact E].
  - destruct M as (T & _ & R & _). right. exists r'. split; [|exact O]. destruct (side_cases s0 s) as [->| ->]; [rewrite R in E; exact E|rewrite T in E; exact E].
  - destruct M as (T & _ & R). right. exists r'. split; [|exact O]. destruct (side_cases s0 s) as [->| ->]; [rewrite R in E; exact E|rewrite T in E; exact E].
  - destruct M as (T & _ & R). right. exists r'. split; [|exact O]. destruct (side_cases s0 s) as [->| ->]; [|rewrite T in E; exact E].
    destruct R as [(f & _ & R)|(ik & h & sid & d & md & pa & n & _ & R)]; rewrite R in E; [exact E|].
    destruct (Nat.lt_ge_cases j (length (p_runs (n_peer st s0)))) as [L|L]; [rewrite nth_error_app1 in E by exact L; exact E|]. rewrite nth_error_app2 in E by exact L. destruct (j - length (p_runs (n_peer st s0)))%nat as [|x]; [|destruct x; discriminate E]. injection E as <-. discriminate O.
  - destruct M as (T & _ & l & h & sid & d & md & q & Ll & R1 & R2). destruct (side_cases s0 s) as [->| ->]; [|right; exists r'; rewrite T in E; auto].
    rewrite R2 in E. rewrite R1. destruct (conclude_nth l _ (mkRun h sid d md None) q j r' E) as [(-> & -> & _)|(_ & ->)]; [left; cbn in O; congruence|right; exists r'; auto].
Qed.
Lemma sendable_outs : forall st, net_reach w tbl st -> forall s r o, In r (p_runs (n_peer st s)) -> r_out r = Some o -> sendable_out o.
Proof.
  intros st R. induction R as [|st mv st' R IH A D]; intros s r o Hr Ro; [destruct Hr|].
  destruct (In_nth_error _ _ Hr) as [j E]. destruct (moved_out _ _ _ _ _ _ _ (do_moved _ _ _ D) E Ro) as [->|(r0 & E0 & R0)]; [exact A|]. exact (IH s r0 o (nth_error_In _ _ E0) R0).
Qed.

Lemma outcome_kept : forall st st' s c c' o, kept st st' -> call_kept c c' -> outcome_for w tbl st s c o -> outcome_for w tbl st' s c' o.
Proof.
  intros st st' s c c' o [_ K] (C1 & C2 & C3 & _) [(r & Hr & Rf & Ro)|[Nb ->]].
  - left. destruct (In_nth_error _ _ Hr) as [j E]. destruct (K _ _ _ E) as (r' & E' & K1 & K2 & K3 & K4 & K5). exists r'. split; [exact (nth_error_In _ _ E')|]. split; [|exact (K5 _ Ro)].
    unfold run_for in *. rewrite C1, C2, C3, K1, K2, K3, K4. exact Rf.
  - right. rewrite C3. auto.
Qed.

(** The calls of one side when nothing is under way for them. *)
Lemma side_at_rest : (forall s, few (tbl s)) -> forall st, net_reach w tbl st -> forall s k c, nth_error (p_calls (n_peer st s)) k = Some c -> c_subscribed c = true ->
  n_wire st s = [] -> n_wire st (other s) = [] -> p_tasks (n_peer st (other s)) = [] -> Forall (fun r => r_out r <> None) (p_runs (n_peer st (other s))) ->
  exists o, results c = [o].
Proof.
  intros F st R s k c E Sb A1 B1 B2 B3. destruct (reach_ninv w tbl F st R) as [mm I]. assert (V := ni_view _ _ _ _ I s). unfold view in V.
  assert (Q := i_count _ _ _ _ _ _ _ _ _ V _ _ E). rewrite (ni_wire _ _ _ _ I) in A1, B1. apply map_eq_nil in A1. apply map_eq_nil in B1.
  assert (O : open_runs (p_runs (n_peer st (other s))) = []).
  { unfold open_runs. clear - B3. induction B3 as [|r l N0 _ IH]; [reflexivity|]. cbn [filter]. destruct (r_out r); [exact IH|contradiction]. }
  rewrite A1, B1, B2, O in Q. cbn [reqs reps flat_map] in Q. rewrite !cnt_nil in Q. cbn [Nat.add] in Q. rewrite Sb in Q.
  destruct (i_proc _ _ _ _ _ _ _ _ _ V _ _ E) as [[S P]|[[S P]|(o & S & P & Oc)]]; [congruence| |].
  - unfold finished, results in Q. rewrite P in Q. discriminate Q.
  - exists o. unfold results. rewrite P. reflexivity.
Qed.
End Steps.

(** ** Lists of nets *)
Lemma put_length : forall A (l : list A) n x, length (put_nth l n x) = length l.
Proof. induction l as [|a l IH]; intros [|n] x; cbn; try reflexivity. rewrite IH. reflexivity. Qed.
Lemma put_same : forall A (l : list A) n y x, nth_error l n = Some y -> nth_error (put_nth l n x) n = Some x.
Proof. induction l as [|a l IH]; intros [|n] y x E; try discriminate E; cbn in *; [reflexivity|]. exact (IH _ _ _ E). Qed.
Lemma put_other : forall A (l : list A) n j x, j <> n -> nth_error (put_nth l n x) j = nth_error l j.
Proof. induction l as [|a l IH]; intros [|n] [|j] x N0; cbn; try reflexivity; try congruence. apply IH. congruence. Qed.
Lemma put_sum : forall A (f : A -> nat) (l : list A) n y x, nth_error l n = Some y -> (list_sum (map f (put_nth l n x)) + f y = list_sum (map f l) + f x)%nat.
Proof.
  induction l as [|a l IH]; intros [|n] y x E; try discriminate E; cbn [put_nth map list_sum fold_right] in *.
  - injection E as <-. unfold list_sum. lia.
  - assert (Q := IH _ _ x E). unfold list_sum in *. lia.
Qed.

Section Relay.
Context {G : Type}.
Context (m : mesh) (exported : nat -> ikind -> list (option G)).
Context (n : nat) (Ok : mesh_ok m exported n).
Notation H := (destination + G)%type.
Notation net := (net H).
Notation site := relay_site.
Notation tbl := (relay_tbl m exported).

Lemma tables_few : forall i s, few (tbl i s).
Proof. intros i s k. destruct (proj1 Ok i k) as [A B]. destruct s; cbn [relay_tbl]; unfold len in *; rewrite map_length; assumption. Qed.

Definition link_ok (nets : list net) (l : link) : Prop :=
  exists st x d sd c, nth_error nets (l_from l) = Some st /\ nth_error (p_runs (n_peer st Server)) (l_run l) = Some x /\ r_handler x = inl d /\ l_to l = d_inst d /\
    nth_error nets (l_to l) = Some sd /\ nth_error (p_calls (n_peer sd Server)) (l_call l) = Some c /\ c_subscribed c = true /\ c_data c = r_data x /\ c_md c = be 4 (d_index d) ++ skipn 4 (r_md x) /\
    forall o, r_out x = Some o -> outcome_for site (tbl (l_to l)) sd Server c o.
Record ybase (r : relay G) : Prop := {
  yb_len : length (y_nets r) = n;
  yb_reach : forall i st, nth_error (y_nets r) i = Some st -> net_reach site (tbl i) st;
  yb_link : forall l, In l (y_links r) -> link_ok (y_nets r) l }.
Definition all_linked (r : relay G) : Prop :=
  forall i st j x, nth_error (y_nets r) i = Some st -> nth_error (p_runs (n_peer st Server)) j = Some x -> exists l, In l (y_links r) /\ l_from l = i /\ l_run l = j.

Lemma net_move_some : forall r i mv r', net_move m exported r i mv = Some r' ->
  exists st st', nth_error (y_nets r) i = Some st /\ do_move site (tbl i) st mv = Some st' /\ r' = mkRelay (put_nth (y_nets r) i st') (y_links r).
Proof.
  intros r i mv r' E. unfold net_move in E. destruct (nth_error (y_nets r) i) as [st|] eqn:N0; [|discriminate E]. destruct (do_move site (tbl i) st mv) as [st'|] eqn:D; [|discriminate E]. injection E as <-. exists st, st'. auto.
Qed.
Lemma put_kept : forall (nets : list net) i st st', nth_error nets i = Some st -> kept st st' -> forall j x, nth_error nets j = Some x -> exists x', nth_error (put_nth nets i st') j = Some x' /\ kept x x' /\ (j <> i -> x' = x) /\ (j = i -> x' = st').
Proof.
  intros nets i st st' E K j x Ej. destruct (Nat.eq_dec j i) as [->|N0].
  - exists st'. rewrite (put_same _ _ _ _ _ E). assert (x = st) by congruence. subst x. split; [reflexivity|]. split; [exact K|]. split; [contradiction|reflexivity].
  - exists x. rewrite put_other by exact N0. split; [exact Ej|]. split; [apply kept_refl|]. split; [reflexivity|contradiction].
Qed.

Lemma base_move : forall r i mv r', ybase r -> (forall st, nth_error (y_nets r) i = Some st -> allowed st mv) -> net_move m exported r i mv = Some r' ->
  (forall l o j, mv = MConclude Server j o -> In l (y_links r) -> l_from l = i -> l_run l = j ->
     forall sd c, nth_error (y_nets r) (l_to l) = Some sd -> nth_error (p_calls (n_peer sd Server)) (l_call l) = Some c -> outcome_for site (tbl (l_to l)) sd Server c o) ->
  ybase r'.
Proof.
  intros r i mv r' [B1 B2 B3] A E Cn. destruct (net_move_some _ _ _ _ E) as (st & st' & N0 & D & ->). assert (M := do_moved _ _ _ _ _ D). assert (K := moved_kept _ _ _ M). constructor; cbn [y_nets y_links].
  - rewrite put_length. exact B1.
  - intros j x Ej. destruct (Nat.eq_dec j i) as [->|Nj].
    + rewrite (put_same _ _ _ _ _ N0) in Ej. injection Ej as <-. exact (n_move _ _ st mv st' (B2 _ _ N0) (A _ N0) D).
    + rewrite put_other in Ej by exact Nj. exact (B2 _ _ Ej).
  - intros l Hl. destruct (B3 l Hl) as (s0 & x & d & sd & c & L1 & L2 & L3 & L4 & L5 & L6 & L7 & L8 & L9 & L10).
    destruct (put_kept _ _ _ _ N0 K _ _ L1) as (s0' & L1' & Ks & Ks1 & Ks2). destruct (put_kept _ _ _ _ N0 K _ _ L5) as (sd' & L5' & Kd & _).
    destruct (proj2 Ks _ _ _ L2) as (x' & L2' & X1 & X2 & X3 & X4 & X5). destruct (proj1 Kd _ _ _ L6) as (c' & L6' & Kc). assert (Kc' := Kc). destruct Kc' as (C1 & C2 & C3 & C4).
    exists s0', x', d, sd', c'. split; [exact L1'|]. split; [exact L2'|]. split; [congruence|]. split; [exact L4|]. split; [exact L5'|]. split; [exact L6'|]. split; [auto|]. split; [congruence|]. split; [congruence|].
    intros o O. assert (Old : (mv = MConclude Server (l_run l) o /\ l_from l = i) \/ r_out x = Some o).
    { destruct (Nat.eq_dec (l_from l) i) as [Ei|Ni].
      - assert (s0' = st') by auto. subst s0'. assert (s0 = st) by congruence. subst s0. destruct (moved_out _ _ _ _ _ _ _ M L2' O) as [Q|(y & Ey & Oy)]; [left; auto|right]. congruence.
      - assert (s0' = s0) by auto. subst s0'. right. congruence. }
    apply (outcome_kept site (tbl (l_to l)) sd sd' Server c c' o Kd Kc). destruct Old as [[Q Ei]|Q]; [exact (Cn l o _ Q Hl Ei eq_refl _ _ L5 L6)|exact (L10 _ Q)].
Qed.

Lemma wf_head : forall md, wf md -> forall v, v < 2^32 -> wf (be 4 v ++ skipn 4 md).
Proof. intros md W v V. apply wf_app. split; [apply be_wf|apply wf_skipn; exact W]. Qed.

(** What a destination is given. *)
Lemma host_task : forall i st j t, net_reach site (tbl i) st -> nth_error (p_tasks (n_peer st Server)) j = Some t ->
  (exists f, t = ASend f) \/
  exists k c d pa, nth_error (p_calls (n_peer st Client)) k = Some c /\ sendable (c_data c) (c_md c) /\ leads_to m i (c_md c) d /\ t = ARun RR (inl d) (c_sid c) (c_data c) (c_md c) pa 1.
Proof.
  intros i st j t R E. destruct (reach_ninv site (tbl i) (tables_few i) st R) as [mm I]. assert (V := ni_view _ _ _ _ I Client). unfold view in V. cbn [other] in V.
  destruct (i_task _ _ _ _ _ _ _ _ _ V t (nth_error_In _ _ E)) as (k & c & Ec & T). destruct (i_sid _ _ _ _ _ _ _ _ _ V _ _ Ec) as [_ Sd]. destruct T as [[_ ->]|(h & pa & [N1 N2] & ->)]; [left; eexists; reflexivity|right].
  cbn [other relay_tbl] in N2. rewrite nth_error_map in N2. destruct (nth_error (m_tabs m i RR) (N.to_nat (number4 (c_md c)))) as [[d|]|] eqn:Q; try discriminate N2. cbn in N2. injection N2 as <-.
  exists k, c, d, pa. split; [exact Ec|]. split; [exact Sd|]. split; [split; [exact N1|exact Q]|reflexivity].
Qed.
Lemma leads_ok : forall i md d, leads_to m i md d -> (d_inst d < n)%nat /\ d_index d < 2^32 /\ redirect d (Some md) = Ret (Some (be 4 (d_index d) ++ skipn 4 md)).
Proof.
  intros i md d [L E]. destruct (proj2 Ok i RR d (nth_error_In _ _ E)) as [A B]. split; [exact A|]. split; [exact B|]. apply redirect_proof; [lia|exact B].
Qed.
Lemma redirected_sendable : forall d md (v : N), v < 2^32 -> 8 <= len md -> sendable d md -> sendable d (be 4 v ++ skipn 4 md).
Proof.
  intros d md v V L (A & B & C). assert (Q : len (be 4 v ++ skipn 4 md) = len md) by (rewrite len_app, be_len, len_skipn; lia). split; [apply wf_head; assumption|]. unfold fits32 in *. rewrite Q. split; assumption.
Qed.

(** Forwarding, step by step. *)
Lemma forward_steps : forall r i j r', do_relay m exported r (RForward i j) = Some r' ->
  exists st d ik sid data md pa q md' r1 sd r2 r3,
    nth_error (y_nets r) i = Some st /\ nth_error (p_tasks (n_peer st Server)) j = Some (ARun ik (inl d) sid data md pa q) /\ redirect d (Some md) = Ret (Some md') /\
    net_move m exported r i (MTask Server j) = Some r1 /\ nth_error (y_nets r1) (d_inst d) = Some sd /\ net_move m exported r1 (d_inst d) (MCall Server data md') = Some r2 /\
    net_move m exported r2 (d_inst d) (MSubscribe Server (length (p_calls (n_peer sd Server)))) = Some r3 /\
    r' = mkRelay (y_nets r3) (y_links r ++ [mkLink i (length (p_runs (n_peer st Server))) (d_inst d) (length (p_calls (n_peer sd Server)))]).
Proof.
  intros r i j r' E. cbn [do_relay] in E. destruct (nth_error (y_nets r) i) as [st|] eqn:N0; [|discriminate E]. destruct (nth_error (p_tasks (n_peer st Server)) j) as [t|] eqn:T; [|discriminate E].
  destruct t as [f|rq|s0|ik [d|g] sid data md pa q|k c|sid]; try discriminate E. destruct (redirect d (Some md)) as [[md'|]| |] eqn:Rd; try discriminate E.
  destruct (net_move m exported r i (MTask Server j)) as [r1|] eqn:M1; [|discriminate E]. destruct (nth_error (y_nets r1) (d_inst d)) as [sd|] eqn:N1; [|discriminate E].
  destruct (net_move m exported r1 (d_inst d) (MCall Server data md')) as [r2|] eqn:M2; [|discriminate E]. destruct (net_move m exported r2 (d_inst d) (MSubscribe Server (length (p_calls (n_peer sd Server))))) as [r3|] eqn:M3; [|discriminate E].
  injection E as <-. exists st, d, ik, sid, data, md, pa, q, md', r1, sd, r2, r3. repeat split; assumption.
Qed.

Definition distinct (r : relay G) : Prop := forall l l', In l (y_links r) -> In l' (y_links r) -> l_from l = l_from l' -> l_run l = l_run l' -> l = l'.
Definition yinv (r : relay G) : Prop := ybase r /\ all_linked r /\ distinct r.

Lemma forward_inv : forall r i j r', yinv r -> relay_allowed r (RForward i j) -> do_relay m exported r (RForward i j) = Some r' -> yinv r'.
Proof.
  intros r i j r' (B & L & U) A E. destruct (forward_steps _ _ _ _ E) as (st & d & ik & sid & data & md & pa & q & md' & r1 & sd & r2 & r3 & N0 & T & Rd & M1 & N1 & M2 & M3 & ->). clear E.
  destruct (host_task i st j _ (yb_reach _ B _ _ N0) T) as [[f Q]|(k0 & c0 & d0 & pa0 & Ec & Sd & Lt & Q)]; [discriminate Q|]. injection Q as -> -> -> -> -> -> ->.
  destruct (leads_ok _ _ _ Lt) as (D1 & D2 & D3). assert (Em : md' = be 4 (d_index d0) ++ skipn 4 (c_md c0)) by congruence. clear Rd D3.
  assert (B1 : ybase r1) by (apply (base_move r i (MTask Server j)); [exact B|intros; exact Logic.I|exact M1|discriminate]).
  destruct (net_move_some _ _ _ _ M1) as (st_ & st1 & N0' & Mv1 & ->). assert (st_ = st) by congruence. subst st_. clear N0'. cbn [y_nets y_links] in *.
  assert (Room : len (p_calls (n_peer sd Server)) < 2^30).
  { cbn [relay_allowed] in A. rewrite Forall_forall in A. destruct (Nat.eq_dec (d_inst d0) i) as [Ei|Ni].
    - rewrite Ei, (put_same _ _ _ _ _ N0) in N1. injection N1 as <-. assert (Q := do_moved _ _ _ _ _ Mv1). cbn [moved] in Q. destruct Q as (_ & -> & _). exact (A _ (nth_error_In _ _ N0)).
    - rewrite put_other in N1 by exact Ni. exact (A _ (nth_error_In _ _ N1)). }
  assert (B2 : ybase r2).
  { apply (base_move _ (d_inst d0) (MCall Server (c_data c0) md') _ B1); [|exact M2|discriminate]. intros x Ex. cbn [y_nets] in Ex. assert (x = sd) by congruence. subst x. cbn [allowed]. split; [|exact Room]. rewrite Em. apply redirected_sendable; [exact D2|apply Lt|exact Sd]. }
  destruct (net_move_some _ _ _ _ M2) as (sd_ & sd1 & N1' & Mv2 & ->). cbn [y_nets y_links] in *. assert (sd_ = sd) by congruence. subst sd_. clear N1'.
  assert (Q2 := do_moved _ _ _ _ _ Mv2). cbn [moved] in Q2. destruct Q2 as (T2 & _ & _ & R2 & sid1 & C2).
  assert (Nc : nth_error (p_calls (n_peer sd1 Server)) (length (p_calls (n_peer sd Server))) = Some (mkCall sid1 (c_data c0) md' false new_processor)) by (rewrite C2, nth_error_app2, Nat.sub_diag by lia; reflexivity).
  assert (N2 : nth_error (put_nth (put_nth (y_nets r) i st1) (d_inst d0) sd1) (d_inst d0) = Some sd1) by exact (put_same _ _ _ _ _ N1).
  assert (B3 : ybase r3).
  { apply (base_move _ (d_inst d0) (MSubscribe Server (length (p_calls (n_peer sd Server)))) _ B2); [|exact M3|discriminate]. intros x Ex. cbn [y_nets] in Ex. assert (x = sd1) by congruence. subst x. cbn [allowed]. intros c Hc. rewrite Nc in Hc. injection Hc as <-. reflexivity. }
  destruct (net_move_some _ _ _ _ M3) as (sd_ & sd2 & N2' & Mv3 & ->). cbn [y_nets y_links] in *. assert (sd_ = sd1) by congruence. subst sd_. clear N2'.
  assert (Q3 := do_moved _ _ _ _ _ Mv3). cbn [moved] in Q3. destruct Q3 as (T3 & _ & R3 & _ & _ & c1 & f & Ec1 & C3 & F3).
  assert (Rst1 : p_runs (n_peer st1 Server) = p_runs (n_peer st Server) ++ [mkRun (inl d0) (c_sid c0) (c_data c0) (c_md c0) None]).
  { assert (Q := do_moved _ _ _ _ _ Mv1). cbn [moved] in Q. destruct Q as (_ & _ & [(f' & Q & _)|(ik & h & sid & dd & mdd & pa & q & Q & ->)]); rewrite T in Q; [discriminate Q|]. injection Q as <- <- <- <- <- <- <-. reflexivity. }
  (* The runs of the nets, in the end. *)
  assert (Rn : forall x st', nth_error (put_nth (put_nth (put_nth (y_nets r) i st1) (d_inst d0) sd1) (d_inst d0) sd2) x = Some st' ->
     exists st0, nth_error (y_nets r) x = Some st0 /\ p_runs (n_peer st' Server) = p_runs (n_peer st0 Server) ++ (if Nat.eqb x i then [mkRun (inl d0) (c_sid c0) (c_data c0) (c_md c0) None] else [])).
  { intros x st' Ex. destruct (Nat.eq_dec x (d_inst d0)) as [->|Nx].
    - rewrite (put_same _ _ _ _ _ N2) in Ex. injection Ex as <-. rewrite R3, R2. destruct (Nat.eqb_spec (d_inst d0) i) as [Ei|Ni].
      + rewrite Ei in N1. rewrite (put_same _ _ _ _ _ N0) in N1. injection N1 as <-. exists st. rewrite Ei. split; [exact N0|exact Rst1].
      + rewrite put_other in N1 by exact Ni. exists sd. rewrite app_nil_r. split; [exact N1|reflexivity].
    - rewrite !(put_other _ _ (d_inst d0)) in Ex by exact Nx. destruct (Nat.eqb_spec x i) as [->|Ni].
      + rewrite (put_same _ _ _ _ _ N0) in Ex. injection Ex as <-. exists st. split; [exact N0|exact Rst1].
      + rewrite put_other in Ex by exact Ni. exists st'. rewrite app_nil_r. split; [exact Ex|reflexivity]. }
  split; [constructor; cbn [y_nets y_links]; [apply (yb_len _ B3)|exact (yb_reach _ B3)|]|split].
  - intros l Hl. apply in_app_or in Hl. destruct Hl as [Hl|[<-|[]]]; [exact (yb_link _ B3 l Hl)|]. cbn [l_from l_run l_to l_call link_ok].
    assert (Li : exists si, nth_error (put_nth (put_nth (put_nth (y_nets r) i st1) (d_inst d0) sd1) (d_inst d0) sd2) i = Some si).
    { destruct (nth_error (put_nth (put_nth (put_nth (y_nets r) i st1) (d_inst d0) sd1) (d_inst d0) sd2) i) as [si|] eqn:Q; [exists si; reflexivity|]. apply nth_error_None in Q. rewrite !put_length in Q. apply nth_error_None in Q. congruence. }
    destruct Li as [si Ei]. destruct (Rn _ _ Ei) as (st0 & E0 & Rr). assert (st0 = st) by congruence. subst st0. rewrite Nat.eqb_refl in Rr.
    exists si, (mkRun (inl d0) (c_sid c0) (c_data c0) (c_md c0) None), d0, sd2, (f c1). cbn [l_from l_run l_to l_call]. split; [exact Ei|]. split; [rewrite Rr, nth_error_app2, Nat.sub_diag by lia; reflexivity|]. split; [reflexivity|]. split; [reflexivity|]. split; [exact (put_same _ _ _ _ _ N2)|].
    split; [rewrite C3, CallInv.upd_nth, Nat.eqb_refl, Ec1; reflexivity|]. rewrite Nc in Ec1. injection Ec1 as <-. assert (Fk := F3 (mkCall sid1 (c_data c0) md' false new_processor)). unfold key in Fk. injection Fk as F0 F1 F2 F4.
    split; [exact F4|]. split; [exact F1|]. split; [rewrite F2; exact Em|]. discriminate.
  - intros x st' jj y Ex Ey. cbn [y_nets y_links] in *. destruct (Rn _ _ Ex) as (st0 & E0 & Rr). rewrite Rr in Ey.
    destruct (Nat.lt_ge_cases jj (length (p_runs (n_peer st0 Server)))) as [Lj|Lj].
    + rewrite nth_error_app1 in Ey by exact Lj. destruct (L _ _ _ _ E0 Ey) as (l & Hl & A1 & A2). exists l. split; [apply in_or_app; left; exact Hl|auto].
    + rewrite nth_error_app2 in Ey by exact Lj. destruct (Nat.eqb_spec x i) as [->|Ni]; [|destruct (jj - length (p_runs (n_peer st0 Server)))%nat; discriminate Ey].
      assert (st0 = st) by congruence. subst st0. exists (mkLink i (length (p_runs (n_peer st Server))) (d_inst d0) (length (p_calls (n_peer sd Server)))). split; [apply in_or_app; right; left; reflexivity|]. split; [reflexivity|]. cbn [l_run].
      destruct (jj - length (p_runs (n_peer st Server)))%nat as [|z] eqn:Z; [lia|destruct z; discriminate Ey].
  - assert (Old : forall l, In l (y_links r) -> l_from l = i -> l_run l <> length (p_runs (n_peer st Server))).
    { intros l Hl Fl Rl. destruct (yb_link _ B l Hl) as (s0 & x & d & sd0 & c & L1 & L2 & _). rewrite Fl in L1. assert (s0 = st) by congruence. subst s0. assert (Q : (l_run l < length (p_runs (n_peer st Server)))%nat) by (apply nth_error_Some; congruence). lia. }
    intros l l' Hl Hl' F1 F2. cbn [y_links] in Hl, Hl'. apply in_app_or in Hl. apply in_app_or in Hl'. destruct Hl as [Hl|[<-|[]]], Hl' as [Hl'|[<-|[]]].
    + exact (U l l' Hl Hl' F1 F2).
    + exfalso. exact (Old l Hl F1 F2).
    + exfalso. exact (Old l' Hl' (eq_sym F1) (eq_sym F2)).
    + reflexivity.
Qed.

(** Moves of guests and of the application. *)
Lemma own_runs : forall (st : net) mv (st' : net), own_move st mv = true -> moved st mv st' -> p_runs (n_peer st' Server) = p_runs (n_peer st Server).
Proof.
  intros st mv st' O M. destruct mv as [s d md|s k|s|s i|s i o]; cbn [moved] in M.
  - destruct M as (T & _ & _ & R & _). destruct s; [unfold touched in T; cbn [other] in T; rewrite T; reflexivity|exact R].
  - destruct M as (T & _ & R & _). destruct s; [unfold touched in T; cbn [other] in T; rewrite T; reflexivity|exact R].
  - destruct M as (T & _ & R). destruct s; [unfold touched in T; cbn [other] in T; rewrite T; reflexivity|exact R].
  - destruct M as (T & _ & R). destruct s; [unfold touched in T; cbn [other] in T; rewrite T; reflexivity|]. cbn [own_move] in O. destruct R as [(f & _ & R)|(ik & h & sid & d & md & pa & q & Q & _)]; [exact R|]. rewrite Q in O. discriminate O.
  - destruct M as (T & _). destruct s; [unfold touched in T; cbn [other] in T; rewrite T; reflexivity|discriminate O].
Qed.
Lemma own_inv : forall r i mv r', yinv r -> relay_allowed r (RNet i mv) -> do_relay m exported r (RNet i mv) = Some r' -> yinv r'.
Proof.
  intros r i mv r' (B & L & U) A E. cbn [do_relay relay_allowed] in *. destruct (nth_error (y_nets r) i) as [st|] eqn:N0; [|discriminate E]. destruct (own_move st mv) eqn:O; [|discriminate E].
  assert (B' : ybase r').
  { apply (base_move r i mv r' B); [intros x Ex; apply A; congruence|exact E|]. intros l o j -> _. cbn [own_move] in O. discriminate O. }
  destruct (net_move_some _ _ _ _ E) as (st_ & st' & N0' & D & ->). assert (st_ = st) by congruence. subst st_. assert (R := own_runs _ _ _ O (do_moved _ _ _ _ _ D)).
  split; [exact B'|]. split; [|exact U]. intros x s0 j y Ex Ey. cbn [y_nets y_links] in *. destruct (Nat.eq_dec x i) as [->|Nx].
  - rewrite (put_same _ _ _ _ _ N0) in Ex. injection Ex as <-. rewrite R in Ey. exact (L _ _ _ _ N0 Ey).
  - rewrite put_other in Ex by exact Nx. exact (L _ _ _ _ Ex Ey).
Qed.

(** Answers going back. *)
Lemma refusal_sendable : forall md : bytes, sendable_out (inr (if len md <? 8 then invalid_metadata else not_found)).
Proof. intro md. destruct (len md <? 8); reflexivity. Qed.
Lemma outcome_sendable : forall i st s c o, net_reach site (tbl i) st -> outcome_for site (tbl i) st s c o -> sendable_out o.
Proof.
  intros i st s c o R [(x & Hx & _ & Ox)|[_ ->]]; [exact (sendable_outs _ _ _ R _ _ _ Hx Ox)|apply refusal_sendable].
Qed.
Lemma back_steps : forall r k r', do_relay m exported r (RBack k) = Some r' ->
  exists l sd c o os, nth_error (y_links r) k = Some l /\ nth_error (y_nets r) (l_to l) = Some sd /\ nth_error (p_calls (n_peer sd Server)) (l_call l) = Some c /\ results c = o :: os /\
    net_move m exported r (l_from l) (MConclude Server (l_run l) o) = Some r'.
Proof.
  intros r k r' E. cbn [do_relay] in E. destruct (nth_error (y_links r) k) as [l|]; [|discriminate E]. destruct (nth_error (y_nets r) (l_to l)) as [sd|] eqn:N1; [|discriminate E]. destruct (nth_error (p_calls (n_peer sd Server)) (l_call l)) as [c|] eqn:C; [|discriminate E].
  change (flat_map snd (p_subs (c_proc c))) with (results c) in E. destruct (results c) as [|o os] eqn:Rc; [discriminate E|]. exists l, sd, c, o, os. repeat split; assumption.
Qed.
Lemma back_inv : forall r k r', yinv r -> do_relay m exported r (RBack k) = Some r' -> yinv r'.
Proof.
  intros r k r' (B & L & U) E. destruct (back_steps _ _ _ E) as (l & sd & c & o & os & El & N1 & Ec & Rc & M). clear E.
  assert (Oc : outcome_for site (tbl (l_to l)) sd Server c o).
  { destruct (C41_outcome _ _ _ (tables_few (l_to l)) sd (yb_reach _ B _ _ N1) Server _ _ Ec) as [Q|(o' & Q & Oc)]; [congruence|]. assert (o' = o) by congruence. subst o'. exact Oc. }
  assert (Hl := nth_error_In _ _ El).
  assert (B' : ybase r').
  { apply (base_move r (l_from l) (MConclude Server (l_run l) o) r' B); [intros x _; exact (outcome_sendable _ _ _ _ _ (yb_reach _ B _ _ N1) Oc)|exact M|].
    intros l' o' j Q Hl' F1 F2 sd' c' N1' Ec'. injection Q as <- <-. assert (l' = l) by (apply U; assumption). subst l'. assert (sd' = sd) by congruence. subst sd'. assert (c' = c) by congruence. subst c'. exact Oc. }
  destruct (net_move_some _ _ _ _ M) as (st & st' & N0 & D & ->). assert (Q := do_moved _ _ _ _ _ D). cbn [moved] in Q. destruct Q as (_ & _ & a & h & sid & d & md & b & _ & R1 & R2).
  split; [exact B'|]. split; [|exact U]. intros x s0 j y Ex Ey. cbn [y_nets y_links] in *. destruct (Nat.eq_dec x (l_from l)) as [->|Nx].
  - rewrite (put_same _ _ _ _ _ N0) in Ex. injection Ex as <-. rewrite R2 in Ey. destruct (conclude_nth a _ (mkRun h sid d md None) b j y Ey) as [(_ & _ & Q)|(_ & Q)]; rewrite <- R1 in Q; exact (L _ _ _ _ N0 Q).
  - rewrite put_other in Ex by exact Nx. exact (L _ _ _ _ Ex Ey).
Qed.

Lemma reach_yinv : forall r, relay_reach m exported n r -> yinv r.
Proof.
  intros r R. induction R as [|r mv r' R IH A E].
  - split; [|split].
    + constructor; cbn [relay_create y_nets y_links]; [apply repeat_length| |intros l []]. intros i st Ei. apply nth_error_In, repeat_spec in Ei. subst st. constructor.
    + intros i st j x Ei Ej. cbn [relay_create y_nets] in Ei. apply nth_error_In, repeat_spec in Ei. subst st. destruct j; discriminate Ej.
    + intros l l' [].
  - destruct mv as [i mv|i j|k]; [exact (own_inv _ _ _ _ IH A E)|exact (forward_inv _ _ _ _ IH A E)|exact (back_inv _ _ _ IH E)].
Qed.

(** ** What is left to do *)
Lemma keys_subscribed : forall l l' : list call, map key l' = map key l -> length (filter c_subscribed l') = length (filter c_subscribed l).
Proof.
  assert (A : forall l : list call, length (filter c_subscribed l) = length (filter (fun k => snd k) (map key l))).
  { induction l as [|c l IH]; [reflexivity|]. cbn [map filter key snd]. destruct (c_subscribed c); cbn [length]; rewrite IH; reflexivity. }
  intros l l' E. rewrite (A l), (A l'), E. reflexivity.
Qed.
Lemma runs_subscribed : forall i st, net_reach site (tbl i) st -> (length (p_runs (n_peer st Server)) <= subscribed_by st Client)%nat.
Proof.
  intros i st R. destruct (C41_one_run _ _ _ (tables_few i) st R Client) as (_ & N1 & Q). cbn [other] in *. unfold subscribed_by. rewrite <- (map_length r_sid), <- (map_length c_sid). apply NoDup_incl_length; [exact N1|].
  intros x Hx. apply in_map_iff in Hx. destruct Hx as (y & <- & Hy). destruct (Q y Hy) as (c & Hc & Sc & Rf). replace (r_sid y) with (c_sid c) by (symmetry; apply Rf). apply in_map, filter_In. split; assumption.
Qed.
Lemma inner_subscribed : forall (st : net) mv (st' : net), inner mv = true -> moved st mv st' -> subscribed_by st' Client = subscribed_by st Client.
Proof.
  intros st mv st' I0 M. unfold subscribed_by. destruct mv as [s d md|s k|s|s i|s i o]; try discriminate I0; cbn [moved] in M; destruct M as (T & C & _); (destruct s; [|unfold touched in T; cbn [other] in T; rewrite T; reflexivity]).
  - apply keys_subscribed. exact C.
  - rewrite C. reflexivity.
  - rewrite C. reflexivity.
Qed.
Lemma inner_left : forall i st mv st', net_reach site (tbl i) st -> allowed st mv -> inner mv = true -> do_move site (tbl i) st mv = Some st' -> length (p_runs (n_peer st' Server)) = length (p_runs (n_peer st Server)) -> (net_left st' < net_left st)%nat.
Proof.
  intros i st mv st' R A I0 D Lr. unfold net_left. rewrite Lr, (inner_subscribed _ _ _ I0 (do_moved _ _ _ _ _ D)). assert (W := proj1 (C41_progress _ _ _ (tables_few i) st R) mv st' A I0 D). lia.
Qed.
Lemma task_left : forall i st j st', net_reach site (tbl i) st -> do_move site (tbl i) st (MTask Server j) = Some st' -> length (p_runs (n_peer st' Server)) = S (length (p_runs (n_peer st Server))) -> (net_left st' + 6 <= net_left st)%nat.
Proof.
  intros i st j st' R D Lr. assert (W := proj1 (C41_progress _ _ _ (tables_few i) st R) (MTask Server j) st' Logic.I eq_refl D). assert (Q := runs_subscribed i st' (n_move _ _ st (MTask Server j) st' R Logic.I D)).
  unfold net_left. rewrite Lr in *. rewrite (inner_subscribed _ (MTask Server j) _ eq_refl (do_moved _ _ _ _ _ D)) in *. lia.
Qed.
Lemma weight_le : forall bs, (weight bs <= 4)%nat.
Proof. intro bs. unfold weight. destruct (frame_parse bs) as [[f|]| |]; try lia. destruct f; lia. Qed.
Lemma call_left : forall i st d md st', do_move site (tbl i) st (MCall Server d md) = Some st' -> net_left st' = net_left st.
Proof.
  intros i st d md st' D. assert (M := do_moved _ _ _ _ _ D). cbn [moved] in M. destruct M as (T & W & T1 & R & _). unfold touched in T. cbn [other] in T. unfold net_left, work, work_at, subscribed_by. rewrite T, W, T1, R. reflexivity.
Qed.
Lemma subscribe_left : forall i st k st', do_move site (tbl i) st (MSubscribe Server k) = Some st' -> (net_left st' <= net_left st + 4)%nat.
Proof.
  intros i st k st' D. assert (M := do_moved _ _ _ _ _ D). cbn [moved] in M. destruct M as (T & T1 & R & (bs & W1) & W2 & _). unfold touched in T. cbn [other] in T, W1. unfold net_left, work, work_at, subscribed_by. rewrite T, W1, W2, T1, R.
  rewrite map_app, list_sum_app. cbn [map list_sum fold_right]. assert (Q := weight_le bs). lia.
Qed.
Lemma put_left : forall (r : relay G) i (st st' : net) ls, nth_error (y_nets r) i = Some st -> (left_over (mkRelay (put_nth (y_nets r) i st') ls) + net_left st = left_over r + net_left st')%nat.
Proof. intros r i st st' ls E. unfold left_over. cbn [y_nets]. apply put_sum. exact E. Qed.

Lemma relay_less : forall r mv r', yinv r -> relay_allowed r mv -> relay_inner mv = true -> do_relay m exported r mv = Some r' -> (left_over r' < left_over r)%nat.
Proof.
  intros r mv r' (B & L & U) A I0 E. destruct mv as [i mv|i j|k].
  - cbn [do_relay relay_allowed relay_inner] in *. destruct (nth_error (y_nets r) i) as [st|] eqn:N0; [|discriminate E]. destruct (own_move st mv) eqn:O; [|discriminate E].
    destruct (net_move_some _ _ _ _ E) as (st_ & st' & N0' & D & ->). assert (st_ = st) by congruence. subst st_. assert (R := own_runs _ _ _ O (do_moved _ _ _ _ _ D)).
    assert (Q := inner_left i st mv st' (yb_reach _ B _ _ N0) (A _ eq_refl) I0 D ltac:(rewrite R; reflexivity)). assert (P := put_left r i st st' (y_links r) N0). lia.
  - destruct (forward_steps _ _ _ _ E) as (st & d & ik & sid & data & md & pa & q & md' & r1 & sd & r2 & r3 & N0 & T & Rd & M1 & N1 & M2 & M3 & ->). clear E.
    destruct (net_move_some _ _ _ _ M1) as (st_ & st1 & N0' & D1 & ->). assert (st_ = st) by congruence. subst st_. cbn [y_nets] in *.
    destruct (net_move_some _ _ _ _ M2) as (sd_ & sd1 & N1' & D2 & ->). cbn [y_nets] in *. assert (sd_ = sd) by congruence. subst sd_.
    assert (N2 : nth_error (put_nth (put_nth (y_nets r) i st1) (d_inst d) sd1) (d_inst d) = Some sd1) by exact (put_same _ _ _ _ _ N1).
    destruct (net_move_some _ _ _ _ M3) as (sd_ & sd2 & N2' & D3 & ->). cbn [y_nets y_links] in *. assert (sd_ = sd1) by congruence. subst sd_.
    assert (Q1 : (net_left st1 + 6 <= net_left st)%nat).
    { apply (task_left i st j st1 (yb_reach _ B _ _ N0) D1). assert (Q := do_moved _ _ _ _ _ D1). cbn [moved] in Q. destruct Q as (_ & _ & [(f' & Q & _)|(ik' & h & sid' & dd & mdd & pa' & q' & Q & ->)]); [rewrite T in Q; discriminate Q|]. rewrite app_length. cbn [length]. lia. }
    assert (Q2 := call_left _ _ _ _ _ D2). assert (Q3 := subscribe_left _ _ _ _ D3).
    assert (P1 := put_left r i st st1 (y_links r) N0). assert (P2 := put_left (mkRelay (put_nth (y_nets r) i st1) (y_links r)) (d_inst d) sd sd1 (y_links r) N1).
    assert (P3 := put_left (mkRelay (put_nth (put_nth (y_nets r) i st1) (d_inst d) sd1) (y_links r)) (d_inst d) sd1 sd2 (y_links r ++ [mkLink i (length (p_runs (n_peer st Server))) (d_inst d) (length (p_calls (n_peer sd Server)))]) N2).
    cbn [y_nets] in P1, P2, P3. lia.
  - destruct (back_steps _ _ _ E) as (l & sd & c & o & os & El & N1 & Ec & Rc & M). clear E. destruct (net_move_some _ _ _ _ M) as (st & st' & N0 & D & ->).
    assert (Oc : outcome_for site (tbl (l_to l)) sd Server c o).
    { destruct (C41_outcome _ _ _ (tables_few (l_to l)) sd (yb_reach _ B _ _ N1) Server _ _ Ec) as [Q|(o' & Q & Oc)]; [congruence|]. assert (o' = o) by congruence. subst o'. exact Oc. }
    assert (Lr : length (p_runs (n_peer st' Server)) = length (p_runs (n_peer st Server))).
    { assert (Q := do_moved _ _ _ _ _ D). cbn [moved] in Q. destruct Q as (_ & _ & a & h & sid & d & md & b & _ & R1 & R2). rewrite R1, R2, !app_length. reflexivity. }
    assert (Q := inner_left _ st (MConclude Server (l_run l) o) st' (yb_reach _ B _ _ N0) (outcome_sendable _ _ _ _ _ (yb_reach _ B _ _ N1) Oc) eq_refl D Lr). assert (P := put_left r _ st st' (y_links r) N0). lia.
Qed.

(** ** Going on *)
Lemma forward_ok : forall r i j st ik h sid data md pa q, yinv r -> relay_allowed r (RForward i j) -> nth_error (y_nets r) i = Some st -> nth_error (p_tasks (n_peer st Server)) j = Some (ARun ik h sid data md pa q) ->
  exists r', do_relay m exported r (RForward i j) = Some r'.
Proof.
  intros r i j st ik h sid data md pa q (B & L & U) A N0 T.
  destruct (host_task i st j _ (yb_reach _ B _ _ N0) T) as [[f Q]|(k0 & c0 & d0 & pa0 & Ec & Sd & Lt & Q)]; [discriminate Q|]. injection Q as -> -> -> -> -> -> ->.
  destruct (leads_ok _ _ _ Lt) as (D1 & D2 & D3). cbn [do_relay]. rewrite N0, T, D3. remember (be 4 (d_index d0) ++ skipn 4 (c_md c0)) as md' eqn:Em.
  destruct (reach_ninv site (tbl i) (tables_few i) st (yb_reach _ B _ _ N0)) as [mm I]. destruct (m_task site (tbl i) (tables_few i) st mm Server j _ I T) as (st1 & mm1 & Mv1 & I1 & _).
  assert (M1 : net_move m exported r i (MTask Server j) = Some (mkRelay (put_nth (y_nets r) i st1) (y_links r))) by (unfold net_move; rewrite N0, Mv1; reflexivity). rewrite M1. cbn [y_nets].
  assert (B1 : ybase (mkRelay (put_nth (y_nets r) i st1) (y_links r))) by (apply (base_move r i (MTask Server j)); [exact B|intros; exact Logic.I|exact M1|discriminate]).
  destruct (nth_error (put_nth (y_nets r) i st1) (d_inst d0)) as [sd|] eqn:N1; [|apply nth_error_None in N1; rewrite put_length, (yb_len _ B) in N1; lia].
  assert (Room : len (p_calls (n_peer sd Server)) < 2^30).
  { cbn [relay_allowed] in A. rewrite Forall_forall in A. destruct (Nat.eq_dec (d_inst d0) i) as [Ei|Ni].
    - rewrite Ei, (put_same _ _ _ _ _ N0) in N1. injection N1 as <-. assert (Q := do_moved _ _ _ _ _ Mv1). cbn [moved] in Q. destruct Q as (_ & -> & _). exact (A _ (nth_error_In _ _ N0)).
    - rewrite put_other in N1 by exact Ni. exact (A _ (nth_error_In _ _ N1)). }
  destruct (reach_ninv site (tbl (d_inst d0)) (tables_few _) sd (yb_reach _ B1 _ _ N1)) as [ms Is].
  destruct (m_call site (tbl (d_inst d0)) (tables_few _) sd ms Server (c_data c0) md' Is) as (sd1 & Mv2 & I2); [rewrite Em; apply redirected_sendable; [exact D2|apply Lt|exact Sd]|exact Room|].
  assert (M2 : net_move m exported (mkRelay (put_nth (y_nets r) i st1) (y_links r)) (d_inst d0) (MCall Server (c_data c0) md') = Some (mkRelay (put_nth (put_nth (y_nets r) i st1) (d_inst d0) sd1) (y_links r))) by (unfold net_move; cbn [y_nets y_links]; rewrite N1, Mv2; reflexivity).
  cbn zeta. rewrite M2. assert (Q2 := do_moved _ _ _ _ _ Mv2). cbn [moved] in Q2. destruct Q2 as (_ & _ & _ & _ & sid1 & C2).
  assert (Nc : nth_error (p_calls (n_peer sd1 Server)) (length (p_calls (n_peer sd Server))) = Some (mkCall sid1 (c_data c0) md' false new_processor)) by (rewrite C2, nth_error_app2, Nat.sub_diag by lia; reflexivity).
  destruct (m_subscribe site (tbl (d_inst d0)) sd1 ms Server _ _ I2 Nc eq_refl) as (sd2 & ms2 & Mv3 & _).
  unfold net_move. cbn [y_nets y_links]. rewrite (put_same _ _ _ _ _ N1), Mv3. eexists. reflexivity.
Qed.
Lemma back_ok : forall r k l, yinv r -> nth_error (y_links r) k = Some l ->
  exists st x sd c, nth_error (y_nets r) (l_from l) = Some st /\ nth_error (p_runs (n_peer st Server)) (l_run l) = Some x /\ nth_error (y_nets r) (l_to l) = Some sd /\ nth_error (p_calls (n_peer sd Server)) (l_call l) = Some c /\ c_subscribed c = true /\
    (r_out x = None -> results c <> [] -> exists r', do_relay m exported r (RBack k) = Some r').
Proof.
  intros r k l (B & L & U) El. destruct (yb_link _ B l (nth_error_In _ _ El)) as (st & x & d & sd & c & L1 & L2 & L3 & L4 & L5 & L6 & L7 & _). exists st, x, sd, c. do 5 (split; [assumption|]). intros Ox Rc.
  destruct (C41_outcome _ _ _ (tables_few (l_to l)) sd (yb_reach _ B _ _ L5) Server _ _ L6) as [Q|(o & Q & Oc)]; [contradiction|].
  destruct (reach_ninv site (tbl (l_from l)) (tables_few _) st (yb_reach _ B _ _ L1)) as [mm I].
  destruct (m_conclude site (tbl (l_from l)) (tables_few _) st mm Server (l_run l) x o I L2 Ox (outcome_sendable _ _ _ _ _ (yb_reach _ B _ _ L5) Oc)) as (st' & m' & D & _).
  cbn [do_relay]. rewrite El, L5, L6. change (flat_map snd (p_subs (c_proc c))) with (results c). rewrite Q. unfold net_move. rewrite L1, D. eexists. reflexivity.
Qed.

Lemma own_ok : forall r i st mv st', nth_error (y_nets r) i = Some st -> own_move st mv = true -> do_move site (tbl i) st mv = Some st' -> exists r', do_relay m exported r (RNet i mv) = Some r'.
Proof. intros r i st mv st' N0 O D. cbn [do_relay]. rewrite N0, O. unfold net_move. rewrite N0, D. eexists. reflexivity. Qed.

Definition quiet (st : net) : Prop :=
  (forall s, n_wire st s = []) /\ (forall s, p_tasks (n_peer st s) = []) /\ Forall (fun x => r_out x <> None) (p_runs (n_peer st Client)).
Lemma open_run : forall l : list (run H), Forall (fun x => r_out x <> None) l \/ exists j x, nth_error l j = Some x /\ r_out x = None.
Proof.
  induction l as [|x l [IH|(j & y & E & O)]]; [left; constructor| |right; exists (S j), y; auto]. destruct (r_out x) eqn:O; [left; constructor; [congruence|exact IH]|right; exists 0%nat, x; auto].
Qed.
Definition can_go (r : relay G) : Prop := exists mv r', relay_allowed r mv /\ relay_inner mv = true /\ do_relay m exported r mv = Some r'.
Lemma net_goes : forall r i st, yinv r -> Forall (fun st : net => len (p_calls (n_peer st Server)) < 2^30) (y_nets r) -> nth_error (y_nets r) i = Some st -> quiet st \/ can_go r.
Proof.
  intros r i st Y Rm N0. assert (B := proj1 Y). destruct (reach_ninv site (tbl i) (tables_few _) st (yb_reach _ B _ _ N0)) as [mm I].
  assert (Own : forall mv st', allowed st mv -> inner mv = true -> own_move st mv = true -> do_move site (tbl i) st mv = Some st' -> can_go r).
  { intros mv st' A I0 O D. destruct (own_ok r i st mv st' N0 O D) as [r' E]. exists (RNet i mv), r'. split; [cbn [relay_allowed]; intros x Ex; assert (x = st) by congruence; subst x; exact A|]. split; [exact I0|exact E]. }
  assert (Wr : forall s, n_wire st s = [] \/ can_go r).
  { intro s. destruct (n_wire st s) as [|b l] eqn:W; [left; reflexivity|right]. destruct (m_receive site (tbl i) (tables_few i) st mm s I) as (x & m' & D & _); [rewrite W; discriminate|]. exact (Own (MReceive s) x Logic.I eq_refl eq_refl D). }
  destruct (Wr Client) as [W1|]; [|right; assumption]. destruct (Wr Server) as [W2|]; [|right; assumption].
  destruct (p_tasks (n_peer st Client)) as [|t l] eqn:T1.
  2: { right. destruct (m_task site (tbl i) (tables_few i) st mm Client 0 t I) as (x & m' & D & _); [rewrite T1; reflexivity|]. exact (Own (MTask Client 0) x Logic.I eq_refl eq_refl D). }
  destruct (p_tasks (n_peer st Server)) as [|t l] eqn:T2.
  2: { right. assert (E0 : nth_error (p_tasks (n_peer st Server)) 0 = Some t) by (rewrite T2; reflexivity). destruct (host_task i st 0 t (yb_reach _ B _ _ N0) E0) as [[f ->]|(k & c & d & pa & _ & _ & _ & ->)].
       - destruct (m_task site (tbl i) (tables_few i) st mm Server 0 _ I E0) as (x & m' & D & _). apply (Own (MTask Server 0) x Logic.I eq_refl); [cbn [own_move]; rewrite T2; reflexivity|exact D].
       - destruct (forward_ok r i 0 st _ _ _ _ _ _ _ Y Rm N0 E0) as [r' E]. exists (RForward i 0), r'. split; [exact Rm|]. split; [reflexivity|exact E]. }
  destruct (open_run (p_runs (n_peer st Client))) as [F|(j & x & E & O)].
  - left. split; [|split; [|exact F]]; intros [|]; assumption.
  - right. destruct (m_conclude site (tbl i) (tables_few i) st mm Client j x (inr []) I E O eq_refl) as (st' & m' & D & _). exact (Own (MConclude Client j (inr [])) st' eq_refl eq_refl eq_refl D).
Qed.
Lemma nets_go : forall r, yinv r -> Forall (fun st : net => len (p_calls (n_peer st Server)) < 2^30) (y_nets r) -> (forall st, In st (y_nets r) -> quiet st) \/ can_go r.
Proof.
  intros r Y Rm. assert (Q : forall l, (forall st, In st l -> In st (y_nets r)) -> (forall st, In st l -> quiet st) \/ can_go r).
  { induction l as [|st l IH]; intro Sub; [left; intros st []|]. destruct (In_nth_error _ _ (Sub st (or_introl eq_refl))) as [i E]. destruct (net_goes r i st Y Rm E) as [Qs|]; [|right; assumption].
    destruct IH as [IH|]; [intros x Hx; apply Sub; right; exact Hx| |right; assumption]. left. intros x [<-|Hx]; [exact Qs|exact (IH x Hx)]. }
  exact (Q (y_nets r) (fun st Hs => Hs)).
Qed.
Lemma relay_goes : forall r, yinv r -> Forall (fun st : net => len (p_calls (n_peer st Server)) < 2^30) (y_nets r) -> relay_rest r \/ can_go r.
Proof.
  intros r Y Rm. destruct (nets_go r Y Rm) as [Q|]; [|right; assumption]. assert (B := proj1 Y).
  assert (C : (forall i st, nth_error (y_nets r) i = Some st -> Forall (fun x => r_out x <> None) (p_runs (n_peer st Server))) \/ can_go r).
  { assert (D : forall i st, nth_error (y_nets r) i = Some st -> Forall (fun x => r_out x <> None) (p_runs (n_peer st Server)) \/ can_go r).
    { intros i st N0. destruct (open_run (p_runs (n_peer st Server))) as [F|(j & x & E & O)]; [left; exact F|right].
      destruct (proj1 (proj2 Y) _ _ _ _ N0 E) as (l & Hl & F1 & F2). destruct (In_nth_error _ _ Hl) as [k El]. destruct (back_ok r k l Y El) as (st_ & x_ & sd & c & L1 & L2 & L5 & L6 & L7 & Go).
      rewrite F1 in L1. assert (st_ = st) by congruence. subst st_. rewrite F2 in L2. assert (x_ = x) by congruence. subst x_.
      destruct (Q sd (nth_error_In _ _ L5)) as (W & T & F). destruct (side_at_rest site (tbl (l_to l)) (tables_few _) sd (yb_reach _ B _ _ L5) Server _ _ L6 L7 (W Server) (W Client) (T Client) F) as [o Ro].
      destruct Go as [r' E']; [exact O|rewrite Ro; discriminate|]. exists (RBack k), r'. split; [exact Logic.I|]. split; [reflexivity|exact E']. }
    assert (Dl : forall l, (forall st, In st l -> In st (y_nets r)) -> (forall st, In st l -> Forall (fun x => r_out x <> None) (p_runs (n_peer st Server))) \/ can_go r).
    { induction l as [|st l IH]; intro Sub; [left; intros st []|]. destruct (In_nth_error _ _ (Sub st (or_introl eq_refl))) as [i E]. destruct (D i st E) as [Qs|]; [|right; assumption].
      destruct IH as [IH|]; [intros x Hx; apply Sub; right; exact Hx| |right; assumption]. left. intros x [<-|Hx]; [exact Qs|exact (IH x Hx)]. }
    destruct (Dl (y_nets r) (fun st Hs => Hs)) as [F|]; [left; intros i st E; exact (F st (nth_error_In _ _ E))|right; assumption]. }
  destruct C as [C|]; [left|right; assumption]. apply Forall_forall. intros st Hs. destruct (Q st Hs) as (W & T & F). destruct (In_nth_error _ _ Hs) as [i E]. intros [|]; (split; [apply W|]; split; [apply T|]); [exact F|exact (C i st E)].
Qed.

(** ** End to end *)
Lemma number4_be : forall v rest, v < 2^32 -> wf rest -> number4 (be 4 v ++ rest) = v.
Proof.
  intros v rest V W. rewrite <- number4_unbe; [|apply wf_app; split; [apply be_wf|exact W]|rewrite len_app, be_len; lia]. rewrite firstn_app, be_length, Nat.sub_diag, firstn_O, app_nil_r, firstn_all2 by (rewrite be_length; lia). apply unbe_be_small. exact V.
Qed.
Lemma skip8 : forall v md, skipn 8 (be 4 v ++ skipn 4 md) = skipn 8 md.
Proof. intros v md. rewrite skipn_app, be_length, skipn_all2 by (rewrite be_length; lia). cbn [app]. change (8 - 4)%nat with 4%nat. rewrite skipn_skipn. reflexivity. Qed.

Lemma relayed_all : forall r i st k c o, relay_reach m exported n r -> nth_error (y_nets r) i = Some st -> nth_error (p_calls (n_peer st Client)) k = Some c -> results c = [o] -> relayed m exported r i c o.
Proof.
  intros r i st k c o R N0 Ec Rc. destruct (reach_yinv r R) as (B & L & U). assert (Ri := yb_reach _ B _ _ N0).
  assert (Sd : sendable (c_data c) (c_md c)).
  { destruct (reach_ninv site (tbl i) (tables_few i) st Ri) as [mm I]. exact (proj2 (i_sid _ _ _ _ _ _ _ _ _ (ni_view _ _ _ _ I Client) _ _ Ec)). }
  destruct (C41_outcome _ _ _ (tables_few i) st Ri Client _ _ Ec) as [Q|(o' & Q & Oc)]; [congruence|]. assert (o' = o) by congruence. subst o'. destruct Oc as [(x & Hx & Rf & Ox)|[Nb ->]].
  - right. destruct Rf as (_ & [Nm1 Nm2] & Dx & Mx). cbn [other relay_tbl relay_site handler_metadata] in *. rewrite nth_error_map in Nm2. destruct (nth_error (m_tabs m i RR) (N.to_nat (number4 (c_md c)))) as [[d|]|] eqn:E; try discriminate Nm2. cbn in Nm2. injection Nm2 as Hd.
    assert (Lt : leads_to m i (c_md c) d) by (split; assumption). exists d. split; [exact Lt|]. destruct (leads_ok _ _ _ Lt) as (D1 & D2 & _).
    destruct (In_nth_error _ _ Hx) as [j Ej]. destruct (L _ _ _ _ N0 Ej) as (l & Hl & F1 & F2). destruct (yb_link _ B l Hl) as (st_ & x_ & d_ & sd & c' & L1 & L2 & L3 & L4 & L5 & L6 & L7 & L8 & L9 & L10).
    rewrite F1 in L1. assert (st_ = st) by congruence. subst st_. rewrite F2 in L2. assert (x_ = x) by congruence. subst x_. assert (d_ = d) by congruence. subst d_. specialize (L10 o Ox). rewrite L4 in *. rewrite Mx in L9.
    assert (Nu : number4 (c_md c') = d_index d) by (rewrite L9; apply number4_be; [exact D2|apply wf_skipn; apply Sd]).
    assert (Le : len (c_md c') = len (c_md c)) by (rewrite L9, len_app, be_len, len_skipn; lia).
    destruct L10 as [(y & Hy & Rf & Oy)|[Nb ->]].
    + right. destruct Rf as (_ & [Nm3 Nm4] & Dy & My). cbn [other relay_tbl relay_site handler_metadata] in *. rewrite nth_error_map, Nu in Nm4. destruct (nth_error (exported (d_inst d) RR) (N.to_nat (d_index d))) as [[g|]|] eqn:Eg; try discriminate Nm4. cbn in Nm4. injection Nm4 as Hg.
      exists sd, y, g. split; [exact L5|]. split; [exact Hy|]. split; [congruence|]. split; [reflexivity|]. split; [congruence|]. split; [rewrite My, L9; apply skip8|exact Oy].
    + left. split.
      * intros g Eg. apply (Nb (inr g)). split; [lia|]. cbn [other relay_tbl]. rewrite nth_error_map, Nu, Eg. reflexivity.
      * destruct (N.ltb_spec (len (c_md c')) 8); [lia|reflexivity].
  - left. split; [|reflexivity]. intros d [L1 L2]. apply (Nb (inl d)). split; [exact L1|]. cbn [other relay_tbl]. rewrite nth_error_map, L2. reflexivity.
Qed.

(** ** Links are for different calls *)
Definition distinct_calls (r : relay G) : Prop := forall l l', In l (y_links r) -> In l' (y_links r) -> l_to l = l_to l' -> l_call l = l_call l' -> l = l'.
Lemma reach_distinct : forall r, relay_reach m exported n r -> distinct_calls r.
Proof.
  intros r R. induction R as [|r mv r' R IH A E]; [intros l l' []|]. destruct (reach_yinv r R) as (B & L & U). destruct mv as [i mv|i j|k].
  - cbn [do_relay] in E. destruct (nth_error (y_nets r) i); [|discriminate E]. destruct (own_move _ mv); [|discriminate E]. destruct (net_move_some _ _ _ _ E) as (a & b & _ & _ & ->). exact IH.
  - destruct (forward_steps _ _ _ _ E) as (st & d & ik & sid & data & md & pa & q & md' & r1 & sd & r2 & r3 & N0 & T & Rd & M1 & N1 & M2 & M3 & ->). clear E.
    assert (Old : forall l, In l (y_links r) -> l_to l = d_inst d -> l_call l <> length (p_calls (n_peer sd Server))).
    { intros l Hl Tl Cl. destruct (yb_link _ B l Hl) as (s0 & x & d' & sd0 & c & _ & _ & _ & _ & L5 & L6 & _). destruct (net_move_some _ _ _ _ M1) as (st_ & st1 & N0' & D1 & ->). cbn [y_nets] in N1. rewrite Tl in L5.
      destruct (put_kept _ _ _ _ N0' (moved_kept _ _ _ (do_moved _ _ _ _ _ D1)) _ _ L5) as (sd' & E' & K & _). assert (sd' = sd) by congruence. subst sd'. destruct (proj1 K _ _ _ L6) as (c' & Ec' & _).
      assert (Q : (l_call l < length (p_calls (n_peer sd Server)))%nat) by (apply nth_error_Some; congruence). lia. }
    intros l l' Hl Hl' F1 F2. cbn [y_links] in Hl, Hl'. apply in_app_or in Hl. apply in_app_or in Hl'. destruct Hl as [Hl|[<-|[]]], Hl' as [Hl'|[<-|[]]].
    + exact (IH l l' Hl Hl' F1 F2).
    + exfalso. exact (Old l Hl F1 F2).
    + exfalso. exact (Old l' Hl' (eq_sym F1) (eq_sym F2)).
    + reflexivity.
  - destruct (back_steps _ _ _ E) as (l & sd & c & o & os & _ & _ & _ & _ & M). destruct (net_move_some _ _ _ _ M) as (a & b & _ & _ & ->). exact IH.
Qed.
Lemma link_caller : forall r, relay_reach m exported n r -> forall l, In l (y_links r) -> exists st k c d sd c',
  nth_error (y_nets r) (l_from l) = Some st /\ nth_error (p_calls (n_peer st Client)) k = Some c /\ c_subscribed c = true /\ leads_to m (l_from l) (c_md c) d /\
  (exists x, nth_error (p_runs (n_peer st Server)) (l_run l) = Some x /\ r_sid x = c_sid c) /\
  l_to l = d_inst d /\ nth_error (y_nets r) (l_to l) = Some sd /\ nth_error (p_calls (n_peer sd Server)) (l_call l) = Some c' /\ c_subscribed c' = true /\ c_data c' = c_data c /\ c_md c' = be 4 (d_index d) ++ skipn 4 (c_md c).
Proof.
  intros r R l Hl. destruct (reach_yinv r R) as (B & L & U). destruct (yb_link _ B l Hl) as (st & x & d & sd & c' & L1 & L2 & L3 & L4 & L5 & L6 & L7 & L8 & L9 & _).
  destruct (C41_one_run _ _ _ (tables_few (l_from l)) st (yb_reach _ B _ _ L1) Client) as (_ & _ & Q). destruct (Q x (nth_error_In _ _ L2)) as (c & Hc & Sc & (Rf1 & [Nm1 Nm2] & Rf3 & Rf4)). destruct (In_nth_error _ _ Hc) as [k Ek].
  cbn [other relay_tbl relay_site handler_metadata] in Nm2, Rf4. rewrite nth_error_map in Nm2. destruct (nth_error (m_tabs m (l_from l) RR) (N.to_nat (number4 (c_md c)))) as [[d'|]|] eqn:E; try discriminate Nm2. cbn in Nm2. assert (d' = d) by congruence. subst d'.
  exists st, k, c, d, sd, c'. split; [exact L1|]. split; [exact Ek|]. split; [exact Sc|]. split; [split; assumption|]. split; [exists x; auto|]. split; [exact L4|]. split; [exact L5|]. split; [exact L6|]. split; [exact L7|]. split; [congruence|]. rewrite L9, Rf4. reflexivity.
Qed.
End Relay.

(** ** Loaded meshes *)
Lemma loaded_tabs : forall h m, Forall table_ok h -> load_all h = Ret m -> tabs_ok m.
Proof.
  intros h m F E. destruct (loads_miss (length h) RR 0 h new_mesh 0 (Settled None) new_good) as (m' & E' & Gd & _).
  - eapply Forall_impl; [|exact F]. exact table_ops_ok.
  - intros n t o En _ _. apply not_true_is_false. intro X. apply hit_iff in X as (X & _). cbn [Nat.add] in X. assert (Q : (n < length h)%nat) by (apply nth_error_Some; congruence). lia.
  - apply new_st.
  - exact I.
  - unfold load_all in E. assert (m' = m) by congruence. subst m'. apply Gd.
Qed.
Lemma linked_nth : forall h m i k idx, Forall table_ok h -> load_all h = Ret m -> linked m i k idx = Ret (match nth_error (m_tabs m i k) (N.to_nat idx) with Some x => x | None => None end).
Proof. intros h m i k idx F E. unfold linked. rewrite linked_slot by apply (loaded_tabs h m F E). reflexivity. Qed.
Lemma slot_import : forall h m i k idx d, Forall table_ok h -> load_all h = Ret m -> nth_error (m_tabs m i k) (N.to_nat idx) = Some (Some d) ->
  exists t o, nth_error h i = Some t /\ In o t /\ op_dir o = 2 /\ op_type o = type_no k /\ op_index o = idx /\ In ((op_ns o, op_name o), d) (all_exports h).
Proof.
  intros h m i k idx d F E S. assert (Lk := linked_nth h m i k idx F E). rewrite S in Lk.
  assert (Dec : (exists t o, nth_error h i = Some t /\ In o t /\ op_dir o = 2 /\ op_type o = type_no k /\ op_index o = idx) \/
                (forall t o, nth_error h i = Some t -> In o t -> op_dir o = 2 -> ~ (op_type o = type_no k /\ op_index o = idx))).
  { destruct (nth_error h i) as [t|] eqn:Ei; [|right; intros t o Q; discriminate Q].
    destruct (existsb (fun o => (op_dir o =? 2) && (op_type o =? type_no k) && (op_index o =? idx)) t) eqn:X.
    - left. apply existsb_exists in X. destruct X as (o & Ho & Q). apply andb_prop in Q as [Q Q3]. apply andb_prop in Q as [Q1 Q2]. apply N.eqb_eq in Q1, Q2, Q3. exists t, o. auto.
    - right. intros t' o Et Ho Dd [Q2 Q3]. assert (t' = t) by congruence. subst t'. assert (Y : existsb (fun o => (op_dir o =? 2) && (op_type o =? type_no k) && (op_index o =? idx)) t = true).
      { apply existsb_exists. exists o. rewrite Dd, Q2, Q3, !N.eqb_refl. auto. } congruence. }
  destruct Dec as [(t & o & Et & Ho & Dd & Q2 & Q3)|Dec].
  - exists t, o. do 5 (split; [assumption|]). destruct (complete_proof h i t o k F Et Ho Dd Q2) as (m' & r & E' & Lk' & C & _). assert (m' = m) by congruence. subst m'. rewrite Q3 in Lk'. apply C. congruence.
  - destruct (unlinked_proof h i k idx F Dec) as (m' & E' & Lk'). assert (m' = m) by congruence. subst m'. congruence.
Qed.
Lemma export_where : forall h x d, In (x, d) (all_exports h) -> exists t e, nth_error h (d_inst d) = Some t /\ In e t /\ op_dir e = 1 /\ op_index e = d_index d /\ (op_ns e, op_name e) = x.
Proof.
  intros h x d Hd. unfold all_exports in Hd. assert (Q : forall h j, In (x, d) (concat (numbered j h)) -> exists t e, (j <= d_inst d)%nat /\ nth_error h (d_inst d - j) = Some t /\ In e t /\ op_dir e = 1 /\ op_index e = d_index d /\ (op_ns e, op_name e) = x).
  { clear. induction h as [|t h IH]; intros j Hd; [destruct Hd|]. cbn [numbered concat] in Hd. apply in_app_or in Hd. destruct Hd as [Hd|Hd].
    - unfold exports_in in Hd. apply in_flat_map in Hd. destruct Hd as (e & He & Q). destruct (N.eqb_spec (op_dir e) 1) as [D|]; [|destruct Q]. destruct Q as [Q|[]]. injection Q as <- <-. exists t, e. cbn [d_inst d_index]. rewrite Nat.sub_diag. repeat split; auto.
    - destruct (IH _ Hd) as (t' & e & Q1 & Q2 & Q3). exists t', e. split; [lia|]. split; [|exact Q3]. replace (d_inst d - j)%nat with (S (d_inst d - S j)) by lia. exact Q2. }
  destruct (Q h 0%nat Hd) as (t & e & _ & Q2 & Q3). rewrite Nat.sub_0_r in Q2. exists t, e. auto.
Qed.
Lemma loaded_ok : forall G (exported : nat -> ikind -> list (option G)) h m, Forall table_ok h -> (forall t o, In t h -> In o t -> op_index o < 2^32) -> (forall i k, len (exported i k) < 2^32) ->
  load_all h = Ret m -> mesh_ok m exported (length h).
Proof.
  intros G exported h m F I32 Fx E. split; [intros i k; split; [apply (loaded_tabs h m F E)|apply Fx]|]. intros i k d Hd. destruct (In_nth_error _ _ Hd) as [j Ej].
  destruct (slot_import h m i k (N.of_nat j) d F E) as (t & o & _ & _ & _ & _ & _ & X); [rewrite Nat2N.id; exact Ej|]. destruct (export_where _ _ _ X) as (t' & e & A1 & A2 & A3 & A4 & A5).
  split; [apply nth_error_Some; congruence|]. rewrite <- A4. exact (I32 t' e (nth_error_In _ _ A1) A2).
Qed.
