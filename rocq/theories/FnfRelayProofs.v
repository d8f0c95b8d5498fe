(** Fire-and-forget calls through the mesh. *)
From Coq Require Import List NArith ZArith Bool Lia Permutation.
From Coq Require Import ZifyBool ZifyNat ZifyN.
From Verif Require Import Base BaseLemmas FramesModel FramesSpec OperationsModel InvokeModel LookupModel StreamIdModel ProxyModel DispatchModel DispatchSpec DispatchProofs.
From Verif Require Import MeshModel MeshSpec MeshProofs CallModel CallSpec RelayModel FnfModel FnfSpec FnfProofs FnfRelayModel FnfRelaySpec.
From Verif Require CallProofs RelayProofs.
Import ListNotations.
Open Scope N_scope.

(** ** Parts of lists *)
Definition part {A} (a b : list A) : Prop := exists more, Permutation b (a ++ more).
Lemma part_refl : forall A (a : list A), part a a.
Proof. intros. exists []. rewrite app_nil_r. reflexivity. Qed.
Lemma part_trans : forall A (a b c : list A), part a b -> part b c -> part a c.
Proof. intros A a b c [x X] [y Y]. exists (x ++ y). rewrite Y, X, app_assoc. reflexivity. Qed.
Lemma part_perm : forall A (a b : list A), Permutation b a -> part a b.
Proof. intros A a b P. exists []. rewrite app_nil_r. exact P. Qed.
Lemma part_app : forall A (a b c d : list A), part a b -> part c d -> part (a ++ c) (b ++ d).
Proof.
  intros A a b c d [x X] [y Y]. exists (x ++ y). rewrite X, Y, <- !app_assoc. apply Permutation_app_head. rewrite !app_assoc. apply Permutation_app_tail. apply Permutation_app_comm.
Qed.
Lemma part_flat : forall A B (f : A -> list B) a b, part a b -> part (flat_map f a) (flat_map f b).
Proof. intros A B f a b [x X]. exists (flat_map f x). rewrite <- flat_map_app. apply Permutation_flat_map. exact X. Qed.
Lemma flat_flat : forall A B C (f : B -> list C) (g : A -> list B) l, flat_map f (flat_map g l) = flat_map (fun x => flat_map f (g x)) l.
Proof. induction l as [|a l IH]; [reflexivity|]. cbn [flat_map]. rewrite flat_map_app, IH. reflexivity. Qed.
Lemma flat_of_map : forall A B C (f : B -> list C) (g : A -> B) l, flat_map f (map g l) = flat_map (fun x => f (g x)) l.
Proof. induction l as [|a l IH]; [reflexivity|]. cbn [flat_map map]. rewrite IH. reflexivity. Qed.

Section Over.
Context {G : Type}.
Notation fnet := (fnet (destination + G)).
Lemma over_put : forall A (f : nat -> fnet -> list A) extra l i k st st', nth_error l i = Some st -> Permutation (f (k + i)%nat st') (f (k + i)%nat st ++ extra) ->
  Permutation (over_from k f (put_nth l i st')) (over_from k f l ++ extra).
Proof.
  induction l as [|a l IH]; intros [|i] k st st' E P; try discriminate E; cbn [nth_error put_nth over_from] in *.
  - injection E as ->. rewrite Nat.add_0_r in P. rewrite P, <- !app_assoc. apply Permutation_app_head. apply Permutation_app_comm.
  - rewrite <- app_assoc. apply Permutation_app_head. apply (IH i (S k) st st' E). rewrite Nat.add_succ_r in P. exact P.
Qed.
Lemma over_same : forall A (f : nat -> fnet -> list A) l i k st st', nth_error l i = Some st -> f (k + i)%nat st' = f (k + i)%nat st -> over_from k f (put_nth l i st') = over_from k f l.
Proof.
  induction l as [|a l IH]; intros [|i] k st st' E P; try discriminate E; cbn [nth_error put_nth over_from] in *.
  - injection E as ->. rewrite Nat.add_0_r in P. rewrite P. reflexivity.
  - f_equal. apply (IH i (S k) st st' E). rewrite Nat.add_succ_r in P. exact P.
Qed.
Lemma over_part : forall A (f g : nat -> fnet -> list A) l k, (forall i st, nth_error l i = Some st -> part (f (k + i)%nat st) (g (k + i)%nat st)) -> part (over_from k f l) (over_from k g l).
Proof.
  induction l as [|a l IH]; intros k P; [apply part_refl|]. cbn [over_from]. apply part_app; [assert (Q := P 0%nat a eq_refl); rewrite Nat.add_0_r in Q; exact Q|].
  apply IH. intros i st E. assert (Q := P (S i) st E). rewrite Nat.add_succ_r in Q. exact Q.
Qed.
Lemma over_perm : forall A (f g : nat -> fnet -> list A) l k, (forall i st, nth_error l i = Some st -> Permutation (f (k + i)%nat st) (g (k + i)%nat st)) -> Permutation (over_from k f l) (over_from k g l).
Proof.
  induction l as [|a l IH]; intros k P; [reflexivity|]. cbn [over_from]. apply Permutation_app; [assert (Q := P 0%nat a eq_refl); rewrite Nat.add_0_r in Q; exact Q|].
  apply IH. intros i st E. assert (Q := P (S i) st E). rewrite Nat.add_succ_r in Q. exact Q.
Qed.
Lemma over_flat : forall A B (h : A -> list B) (f : nat -> fnet -> list A) l k, flat_map h (over_from k f l) = over_from k (fun i st => flat_map h (f i st)) l.
Proof. induction l as [|a l IH]; intro k; [reflexivity|]. cbn [over_from]. rewrite flat_map_app, IH. reflexivity. Qed.
End Over.

(** ** What a move changes *)
Section Steps.
Context {H : Type}.
Context (w : side -> site) (tbl : side -> ikind -> list (option H)).
Notation fnet := (fnet H).
Definition runs_of (a : act H unit) : list (frun H) := match a with ARun _ h sid data md _ _ => [mkFRun h sid data md] | _ => [] end.
Lemma perform_moved : forall (st st' : fnet) s a, fperform st s a = Some st' ->
  (forall t, fp_calls (fn_peer st' t) = fp_calls (fn_peer st t)) /\ fp_runs (fn_peer st' (other s)) = fp_runs (fn_peer st (other s)) /\ fp_runs (fn_peer st' s) = fp_runs (fn_peer st s) ++ runs_of a.
Proof.
  intros st st' s a E. destruct a as [f|rq|sid|ik h sid data md pa n|k c|sid]; cbn [fperform] in E; try discriminate E; cbn [runs_of]; rewrite ?app_nil_r.
  - unfold fpost in E. destruct (frame_bytes f); try discriminate E. injection E as <-. repeat split.
  - unfold fregister in E. destruct (N.odd sid); [destruct (Add (fp_odd (fn_peer st s)) sid tt)|destruct (Add (fp_even (fn_peer st s)) sid tt)]; try discriminate E; injection E as <-;
      (split; [intro t; destruct (side_cases s t) as [->| ->]; cbn [fn_peer set_fpeer]; rewrite ?eqb_same, ?eqb_other; reflexivity|]); cbn [fn_peer set_fpeer]; rewrite eqb_same, eqb_other; split; reflexivity.
  - destruct ik; try discriminate E. injection E as <-. split; [intro t; destruct (side_cases s t) as [->| ->]; cbn [fn_peer set_fpeer]; rewrite ?eqb_same, ?eqb_other; reflexivity|]. cbn [fn_peer set_fpeer]; rewrite eqb_same, eqb_other; split; reflexivity.
Qed.
Lemma perform_all_moved : forall l (st st' : fnet) s, fperform_all st s l = Some st' ->
  (forall t, fp_calls (fn_peer st' t) = fp_calls (fn_peer st t)) /\ fp_runs (fn_peer st' (other s)) = fp_runs (fn_peer st (other s)) /\ fp_runs (fn_peer st' s) = fp_runs (fn_peer st s) ++ flat_map runs_of l.
Proof.
  induction l as [|a l IH]; intros st st' s E; cbn [fperform_all] in E.
  - injection E as <-. cbn [flat_map]. rewrite app_nil_r. repeat split.
  - destruct (fperform st s a) as [st1|] eqn:P; [|discriminate E]. destruct (perform_moved _ _ _ _ P) as (A1 & A2 & A3). destruct (IH _ _ _ E) as (B1 & B2 & B3). split; [intro t; rewrite B1; apply A1|]. split; [congruence|].
    rewrite B3, A3, <- app_assoc. reflexivity.
Qed.
Definition fmoved (st : fnet) (mv : fmove) (st' : fnet) : Prop :=
  match mv with
  | MFire s d md => fn_peer st' (other s) = fn_peer st (other s) /\ fp_runs (fn_peer st' s) = fp_runs (fn_peer st s) /\ fp_tasks (fn_peer st' s) = fp_tasks (fn_peer st s) /\
      exists sid, fp_calls (fn_peer st' s) = fp_calls (fn_peer st s) ++ [mkFCall sid d md] /\ exists bs, frame_bytes (frequest (mkFCall sid d md)) = Ret bs /\
        fn_wire st' (other s) = fn_wire st (other s) ++ [bs] /\ fn_wire st' s = fn_wire st s
  | MFReceive s => forall t, fp_calls (fn_peer st' t) = fp_calls (fn_peer st t) /\ fp_runs (fn_peer st' t) = fp_runs (fn_peer st t)
  | MFTask s i => (forall t, fp_calls (fn_peer st' t) = fp_calls (fn_peer st t)) /\ fp_runs (fn_peer st' (other s)) = fp_runs (fn_peer st (other s)) /\
      exists l, nth_error (fp_tasks (fn_peer st s)) i = Some l /\ fp_runs (fn_peer st' s) = fp_runs (fn_peer st s) ++ flat_map runs_of l
  end.
Lemma do_fmoved : forall st mv st', do_fmove w tbl st mv = Some st' -> fmoved st mv st'.
Proof.
  intros st mv st' D. destruct mv as [s d md|s|s i]; cbn [do_fmove fmoved] in *.
  - destruct (Next 2 s (fp_counter (fn_peer st s))) as [[counter [sid x]]|]; [|discriminate D]. unfold fpost in D. destruct (frame_bytes (frequest (mkFCall sid d md))) as [bs| |] eqn:FB; try discriminate D. injection D as <-.
    cbn [fn_peer fn_wire set_fpeer set_fwire]. rewrite eqb_same, eqb_other, eqb_same, eqb_other'. repeat split. exists sid. split; [reflexivity|]. exists bs. repeat split. exact FB.
  - destruct (fn_wire st s) as [|bs rest]; [discriminate D|]. destruct (freceived w tbl s (fn_peer st s) bs) as [l|e|]; [| |discriminate D]; injection D as <-; intro t; destruct (side_cases s t) as [->| ->]; cbn [fn_peer set_fpeer set_fwire]; rewrite ?eqb_same, ?eqb_other; split; reflexivity.
  - destruct (nth_error (fp_tasks (fn_peer st s)) i) as [l|] eqn:E; [|unfold cut in D; rewrite E in D; discriminate D]. destruct (CallProofs.cut_some _ _ _ E) as (a & b & C & Et). rewrite C in D.
    destruct (perform_all_moved _ _ _ _ D) as (A1 & A2 & A3). cbn [fn_peer set_fpeer] in A2, A3. rewrite eqb_other in A2. rewrite eqb_same in A3. split; [intro t; rewrite A1; destruct (side_cases s t) as [->| ->]; cbn [fn_peer set_fpeer]; rewrite ?eqb_same, ?eqb_other; reflexivity|].
    split; [exact A2|]. exists l. split; [reflexivity|exact A3].
Qed.
End Steps.

Section FnfRelay.
Context {G : Type}.
Context (m : mesh) (exported : nat -> ikind -> list (option G)).
Context (n : nat) (Ok : fmesh_ok m exported n).
Notation H := (destination + G)%type.
Notation fnet := (fnet H).
Notation frun := (frun H).
Notation site := relay_site.
Notation tbl := (relay_tbl m exported).
Notation frelay := (frelay G).

Lemma ftables_few : forall i s, few (tbl i s).
Proof. intros i s k. destruct (proj1 Ok i k) as [A B]. destruct s; cbn [relay_tbl]; unfold len in *; rewrite map_length; assumption. Qed.
Lemma slot_map : forall A B (f : A -> B) (l : list (option A)) k, at_slot (map (option_map f) l) k = option_map f (at_slot l k).
Proof. intros A B f l k. unfold at_slot. rewrite nth_error_map. destruct (nth_error l (N.to_nat k)) as [[x|]|]; reflexivity. Qed.

(** The tasks of a host. *)
Lemma server_task : forall i st j t, fnet_reach site (tbl i) st -> nth_error (fp_tasks (fn_peer st Server)) j = Some t ->
  (exists f, t = [ASend f]) \/
  exists c d pa, In c (fp_calls (fn_peer st Client)) /\ sendable (fc_data c) (fc_md c) /\ 8 <= len (fc_md c) /\ at_slot (m_tabs m i FNF) (number4 (fc_md c)) = Some d /\
    t = [ARun FNF (inl d) (fc_sid c) (fc_data c) (fc_md c) pa 1].
Proof.
  intros i st j t R E. destruct (reach_inv site (tbl i) (ftables_few i) st R) as (mm & seen & tf & I). assert (F := fi_tasks _ _ _ _ _ _ I Server).
  assert (Q : exists x, nth_error (tf Server) j = Some x /\ task_is (site Server) t x).
  { revert j E. induction F as [|a b la lb Hab _ IH]; intros [|j] E; try discriminate E; cbn in E |- *; [injection E as <-; exists b; auto|]. exact (IH j E). }
  destruct Q as (x & Ex & T). destruct (from_call _ _ _ _ _ _ I Client x) as (c & Hc & ->).
  { cbn [other]. apply in_or_app. left. exact (nth_error_In _ _ Ex). }
  destruct (fi_good _ _ _ _ _ _ I Client c Hc) as [[_ Sd] _]. unfold FnfSpec.fate, handler_for in T. cbn [other relay_tbl relay_site handler_metadata] in T.
  destruct (N.ltb_spec (len (fc_md c)) 8) as [L|L]; [left; eexists; exact T|].
  change (match nth_error (map (option_map (@inl destination G)) (m_tabs m i FNF)) (N.to_nat (number4 (fc_md c))) with Some h => h | None => None end) with (at_slot (map (option_map (@inl destination G)) (m_tabs m i FNF)) (number4 (fc_md c))) in T.
  rewrite slot_map in T. destruct (at_slot (m_tabs m i FNF) (number4 (fc_md c))) as [d|] eqn:Q; cbn [option_map task_is] in T; [|left; eexists; exact T].
  right. destruct T as (pa & ->). exists c, d, pa. cbn [registers relay_site fr_sid fr_handler fr_data fr_md app]. repeat (split; [assumption|]). reflexivity.
Qed.
Lemma slot_in : forall A (l : list (option A)) k x, at_slot l k = Some x -> In (Some x) l.
Proof. intros A l k x E. unfold at_slot in E. destruct (nth_error l (N.to_nat k)) as [o|] eqn:Q; [|discriminate E]. subst o. exact (nth_error_In _ _ Q). Qed.

(** ** The invariant *)
Definition parcel : Type := nat * bytes * bytes.
Definition sent (i : nat) (st : fnet) : list parcel := map (fun c => (i, fc_data c, fc_md c)) (fp_calls (fn_peer st Server)).
Definition passed_on (x : frun) : list parcel := match fr_handler x with inl d => [(d_inst d, fr_data x, be 4 (d_index d) ++ skipn 4 (fr_md x))] | inr _ => [] end.
Definition passed (i : nat) (st : fnet) : list parcel := flat_map passed_on (fp_runs (fn_peer st Server)).
Definition asked (a : ask) : list parcel :=
  match a with
  | AskMesh x data md => match mesh_request m x with Some d => [(d_inst d, data, match md with Some b => be 4 (d_index d) ++ skipn 4 b | None => [] end)] | None => [] end
  | AskHost i data md => [(i, data, md)]
  end.
Record zinv (r : frelay) : Prop := {
  zi_len : length (z_nets r) = n;
  zi_reach : forall i st, nth_error (z_nets r) i = Some st -> fnet_reach site (tbl i) st;
  zi_perm : Permutation (over sent r) (flat_map asked (z_asks r) ++ over passed r) }.

Lemma fnet_move_some : forall nets i mv nets', fnet_move m exported nets i mv = Some nets' ->
  exists st st', nth_error nets i = Some st /\ do_fmove site (tbl i) st mv = Some st' /\ nets' = put_nth nets i st'.
Proof.
  intros nets i mv nets' E. unfold fnet_move in E. destruct (nth_error nets i) as [st|] eqn:N0; [|discriminate E]. destruct (do_fmove site (tbl i) st mv) as [st'|] eqn:D; [|discriminate E]. injection E as <-. exists st, st'. auto.
Qed.
Lemma put_reach : forall (nets : list fnet) i st st' mv, (forall i st, nth_error nets i = Some st -> fnet_reach site (tbl i) st) -> nth_error nets i = Some st -> fallowed st mv -> do_fmove site (tbl i) st mv = Some st' ->
  forall j x, nth_error (put_nth nets i st') j = Some x -> fnet_reach site (tbl j) x.
Proof.
  intros nets i st st' mv R E A D j x Ej. destruct (Nat.eq_dec j i) as [->|Nj].
  - rewrite (RelayProofs.put_same _ _ _ _ _ E) in Ej. injection Ej as <-. exact (fn_move _ _ st mv st' (R _ _ E) A D).
  - rewrite RelayProofs.put_other in Ej by exact Nj. exact (R _ _ Ej).
Qed.
Lemma redirect_some : forall d b b', d_index d < 2^32 -> redirect d (Some b) = Ret b' -> 4 <= len b /\ b' = Some (be 4 (d_index d) ++ skipn 4 b).
Proof.
  intros d b b' V E. destruct (N.lt_ge_cases (len b) 4) as [L|L]; [rewrite redirect_short_proof in E by exact L; discriminate E|]. rewrite redirect_proof in E by assumption. split; [exact L|congruence].
Qed.
Lemma sendable4 : forall d md (v : N), 4 <= len md -> sendable d md -> sendable d (be 4 v ++ skipn 4 md).
Proof.
  intros d md v L (A & B & C). assert (Q : len (be 4 v ++ skipn 4 md) = len md) by (rewrite len_app, be_len, len_skipn; lia). split; [apply wf_app; split; [apply be_wf|apply wf_skipn; exact A]|]. unfold fits32 in *. rewrite Q. split; assumption.
Qed.
(** A call by a host. *)
Lemma fire_inv : forall (nets : list fnet) i d md nets', (forall i st, nth_error nets i = Some st -> fnet_reach site (tbl i) st) -> Forall (fun st : fnet => len (fp_calls (fn_peer st Server)) < 2^62) nets -> sendable d md ->
  fnet_move m exported nets i (MFire Server d md) = Some nets' ->
  length nets' = length nets /\ (forall i st, nth_error nets' i = Some st -> fnet_reach site (tbl i) st) /\ Permutation (over_from 0 sent nets') (over_from 0 sent nets ++ [(i, d, md)]) /\ over_from 0 passed nets' = over_from 0 passed nets.
Proof.
  intros nets i d md nets' R Sp Sd E. destruct (fnet_move_some _ _ _ _ E) as (st & st' & N0 & D & ->). assert (M := do_fmoved _ _ _ _ _ D). cbn [fmoved other] in M. destruct M as (_ & M1 & _ & sid & M2 & _).
  rewrite Forall_forall in Sp. split; [apply RelayProofs.put_length|]. split; [exact (put_reach _ _ _ _ (MFire Server d md) R N0 (conj Sd (Sp st (nth_error_In _ _ N0))) D)|]. split.
  - apply (over_put _ sent [(i, d, md)] nets i 0 st st' N0). unfold sent. rewrite M2, map_app. reflexivity.
  - apply (over_same _ passed nets i 0 st st' N0). unfold passed. rewrite M1. reflexivity.
Qed.
Lemma dest_inv : forall (nets : list fnet) d data md nets', (forall i st, nth_error nets i = Some st -> fnet_reach site (tbl i) st) -> Forall (fun st : fnet => len (fp_calls (fn_peer st Server)) < 2^62) nets -> d_index d < 2^32 ->
  match md with Some b => sendable data b | None => sendable data [] end -> dest_fire m exported nets d data md = Some nets' ->
  length nets' = length nets /\ (forall i st, nth_error nets' i = Some st -> fnet_reach site (tbl i) st) /\
  Permutation (over_from 0 sent nets') (over_from 0 sent nets ++ [(d_inst d, data, match md with Some b => be 4 (d_index d) ++ skipn 4 b | None => [] end)]) /\ over_from 0 passed nets' = over_from 0 passed nets.
Proof.
  intros nets d data md nets' R Sp V Sd E. unfold dest_fire in E. destruct (redirect d md) as [md'| |] eqn:Rd; try discriminate E. destruct md as [b|].
  - destruct (redirect_some _ _ _ V Rd) as [L ->]. exact (fire_inv _ _ _ _ _ R Sp (sendable4 _ _ _ L Sd) E).
  - cbn [redirect] in Rd. injection Rd as <-. exact (fire_inv _ _ _ _ _ R Sp Sd E).
Qed.

Lemma no_runs : forall l : list (act H unit), existsb is_run l = false -> flat_map runs_of l = [].
Proof.
  induction l as [|a l IH]; intro E; [reflexivity|]. cbn [existsb] in E. apply orb_false_iff in E. destruct E as [E1 E2]. cbn [flat_map]. rewrite (IH E2), app_nil_r. destruct a; try reflexivity. discriminate E1.
Qed.
Lemma own_keeps : forall (st st' : fnet) mv w' tb, own_fmove st mv = true -> do_fmove w' tb st mv = Some st' -> fp_calls (fn_peer st' Server) = fp_calls (fn_peer st Server) /\ fp_runs (fn_peer st' Server) = fp_runs (fn_peer st Server).
Proof.
  intros st st' mv w' tb Ow D. assert (M := do_fmoved _ _ _ _ _ D). destruct mv as [[|] d md|s|[|] j]; cbn [fmoved other own_fmove] in *; try discriminate Ow.
  - destruct M as (M & _). rewrite M. split; reflexivity.
  - exact (M Server).
  - destruct M as (M1 & M2 & _). split; [apply M1|exact M2].
  - destruct M as (M1 & _ & l & El & M2). split; [apply M1|]. rewrite El in Ow. rewrite M2, no_runs by (destruct (existsb is_run l); [discriminate Ow|reflexivity]). apply app_nil_r.
Qed.

Lemma forward_cases : forall r i j r', do_zmove m exported r (ZForward i j) = Some r' ->
  exists st ik d sid data md pa q nets, nth_error (z_nets r) i = Some st /\ nth_error (fp_tasks (fn_peer st Server)) j = Some [ARun ik (inl d) sid data md pa q] /\
    fnet_move m exported (z_nets r) i (MFTask Server j) = Some nets /\ dest_fire m exported nets d data (Some md) = Some (z_nets r') /\ z_asks r' = z_asks r.
Proof.
  intros r i j r' E. cbn [do_zmove] in E. destruct (nth_error (z_nets r) i) as [st|] eqn:N0; [|discriminate E]. destruct (nth_error (fp_tasks (fn_peer st Server)) j) as [[|t [|t2 l]]|] eqn:T; try discriminate E; [|destruct t as [ | | |ik [d|g] ? ? ? ? ?| | ]; discriminate E].
  destruct t as [f|rq|s0|ik [d|g] sid data md pa q|k c|sid]; try discriminate E. destruct (fnet_move m exported (z_nets r) i (MFTask Server j)) as [nets|] eqn:M1; [|discriminate E]. destruct (dest_fire m exported nets d data (Some md)) as [nets'|] eqn:M2; [|discriminate E]. injection E as <-.
  exists st, ik, d, sid, data, md, pa, q, nets. auto.
Qed.
Lemma spare_put : forall (nets : list fnet) i st st', nth_error nets i = Some st -> fp_calls (fn_peer st' Server) = fp_calls (fn_peer st Server) -> Forall (fun st : fnet => len (fp_calls (fn_peer st Server)) < 2^62) nets ->
  Forall (fun st : fnet => len (fp_calls (fn_peer st Server)) < 2^62) (put_nth nets i st').
Proof.
  intros nets i st st' E C F. rewrite Forall_forall in *. intros x Hx. destruct (In_nth_error _ _ Hx) as [j Ej]. destruct (Nat.eq_dec j i) as [->|Nj].
  - rewrite (RelayProofs.put_same _ _ _ _ _ E) in Ej. injection Ej as <-. rewrite C. exact (F st (nth_error_In _ _ E)).
  - rewrite RelayProofs.put_other in Ej by exact Nj. exact (F x (nth_error_In _ _ Ej)).
Qed.
Lemma zinv_move : forall r mv r', zinv r -> zallowed m n r mv -> do_zmove m exported r mv = Some r' -> zinv r'.
Proof.
  intros r mv r' [I1 I2 I3] A E. unfold over in *. destruct mv as [i mv|i j|a].
  - cbn [do_zmove zallowed] in *. destruct (nth_error (z_nets r) i) as [st|] eqn:N0; [|discriminate E]. destruct (own_fmove st mv) eqn:Ow; [|discriminate E]. destruct (fnet_move m exported (z_nets r) i mv) as [nets|] eqn:M; [|discriminate E]. injection E as <-.
    destruct (fnet_move_some _ _ _ _ M) as (x & st' & N0' & D & ->). assert (x = st) by congruence. subst x. destruct (own_keeps _ _ _ _ _ Ow D) as [K1 K2]. constructor; unfold over; cbn [z_nets z_asks].
    + rewrite RelayProofs.put_length. exact I1.
    + exact (put_reach _ _ _ _ _ I2 N0 (A st eq_refl) D).
    + rewrite (over_same _ sent _ i 0 st st' N0), (over_same _ passed _ i 0 st st' N0); [exact I3| |]; unfold sent, passed; rewrite ?K1, ?K2; reflexivity.
  - destruct (forward_cases _ _ _ _ E) as (st & ik & d & sid & data & md & pa & q & nets & N0 & T & M1 & M2 & As). clear E. destruct (server_task i st j _ (I2 _ _ N0) T) as [(f & Q)|(c & d' & pa' & Hc & Sd & L8 & Sl & Q)]; [discriminate Q|]. injection Q as -> <- -> -> -> _ _.
    destruct (fnet_move_some _ _ _ _ M1) as (x & st1 & N0' & D & ->). assert (x = st) by congruence. subst x. clear N0'. assert (Mv := do_fmoved _ _ _ _ _ D). cbn [fmoved other] in Mv. destruct Mv as (C1 & _ & l & El & R1). assert (l = [ARun FNF (inl d) (fc_sid c) (fc_data c) (fc_md c) pa q]) by congruence. subst l. cbn [flat_map runs_of app] in R1.
    destruct (proj1 (proj2 Ok) i FNF d (slot_in _ _ _ _ Sl)) as [V1 V2]. cbn [zallowed] in A.
    destruct (dest_inv _ _ _ (Some (fc_md c)) _ (put_reach _ _ _ _ (MFTask Server j) I2 N0 Logic.I D) (spare_put _ _ _ _ N0 (C1 Server) A) V2 Sd M2) as (Q1 & Q2 & Q3 & Q4).
    constructor; unfold over; [rewrite Q1, RelayProofs.put_length; exact I1|exact Q2|]. rewrite Q3, Q4, As. rewrite (over_same _ sent _ i 0 st st1 N0) by (unfold sent; rewrite C1; reflexivity). rewrite I3.
    rewrite (over_put _ passed [(d_inst d, fc_data c, be 4 (d_index d) ++ skipn 4 (fc_md c))] _ i 0 st st1 N0) by (unfold passed; rewrite R1, flat_map_app; cbn [Nat.add flat_map passed_on fr_handler fr_data fr_md app]; reflexivity).
    rewrite <- app_assoc. reflexivity.
  - destruct A as [A Sp]. destruct a as [x data md|i data md]; cbn [do_zmove ask_ok] in *.
    + destruct (mesh_request m x) as [d|] eqn:Rq.
      * destruct (dest_fire m exported (z_nets r) d data md) as [nets|] eqn:M; [|discriminate E]. injection E as <-. destruct (proj2 (proj2 Ok) x d Rq) as [V1 V2].
        destruct (dest_inv _ _ _ md _ I2 Sp V2 ltac:(destruct md; [apply A|exact A]) M) as (Q1 & Q2 & Q3 & Q4). constructor; unfold over; cbn [z_nets z_asks]; [congruence|exact Q2|]. rewrite Q3, Q4, I3, flat_map_app. cbn [flat_map asked]. rewrite Rq.
        rewrite app_nil_r, <- !app_assoc. apply Permutation_app_head. apply Permutation_app_comm.
      * injection E as <-. constructor; unfold over; cbn [z_nets z_asks]; [exact I1|exact I2|]. rewrite flat_map_app. cbn [flat_map asked]. rewrite Rq. cbn [app]. rewrite app_nil_r. exact I3.
    + destruct (fnet_move m exported (z_nets r) i (MFire Server data md)) as [nets|] eqn:M; [|discriminate E]. injection E as <-. destruct (fire_inv _ _ _ _ _ I2 Sp (proj2 A) M) as (Q1 & Q2 & Q3 & Q4).
      constructor; unfold over; cbn [z_nets z_asks]; [congruence|exact Q2|]. rewrite Q3, Q4, I3, flat_map_app. cbn [flat_map asked]. rewrite app_nil_r, <- !app_assoc. apply Permutation_app_head. apply Permutation_app_comm.
Qed.
Lemma zinv_init : zinv (frelay_create n).
Proof.
  constructor.
  - apply repeat_length.
  - intros i st E. assert (Hs := repeat_spec _ _ _ (nth_error_In _ _ E)). subst st. constructor.
  - cbn [frelay_create z_asks flat_map app]. unfold over, frelay_create. cbn [z_nets]. assert (Q : forall k j, over_from j sent (repeat (@fnet_create H) k) = [] /\ over_from j passed (repeat (@fnet_create H) k) = []).
    { induction k as [|k IH]; intro j; [split; reflexivity|]. cbn [repeat over_from]. destruct (IH (S j)) as [-> ->]. split; reflexivity. }
    destruct (Q n 0%nat) as [-> ->]. constructor.
Qed.
Lemma reach_zinv : forall r, frelay_reach m exported n r -> zinv r.
Proof. intros r R. induction R as [|r mv r' R IH A D]; [exact zinv_init|]. exact (zinv_move _ _ _ IH A D). Qed.

(** ** Effects *)
Definition land (p : parcel) : list (effect (G := G)) := let '(i, data, md) := p in if len md <? 8 then [] else export_effect exported (mkDest i (number4 md)) data md.
Lemma land_dest : forall d data md, d_index d < 2^32 -> wf md -> 8 <= len md -> land (d_inst d, data, be 4 (d_index d) ++ skipn 4 md) = export_effect exported d data md.
Proof.
  intros d data md V W L. unfold land. replace (len (be 4 (d_index d) ++ skipn 4 md)) with (len md) by (rewrite len_app, be_len, len_skipn; lia). destruct (N.ltb_spec (len md) 8); [lia|].
  rewrite RelayProofs.number4_be by (try apply wf_skipn; assumption). unfold export_effect. cbn [d_inst d_index]. rewrite skipn_app, be_length, (skipn_all2 (be 4 (d_index d))) by (rewrite be_length; lia). rewrite skipn_skipn. reflexivity.
Qed.
Lemma due_runs_flat : forall B (f : frun -> list B) w' tb X l, flat_map f (due_runs w' tb X l) = flat_map (fun c => match fate w' tb X c with inl x => f x | inr _ => [] end) l.
Proof.
  intros B f w' tb X l. unfold due_runs, lefts. rewrite flat_flat, flat_of_map. apply flat_map_ext. intro c. destruct (fate w' tb X c); cbn [flat_map]; [apply app_nil_r|reflexivity].
Qed.
Lemma slot_nth : forall A (l : list (option A)) k, match nth_error l (N.to_nat k) with Some h => h | None => None end = at_slot l k.
Proof. reflexivity. Qed.
Lemma guest_effects : forall i l, flat_map (run_effect i) (due_runs site (tbl i) Server l) = flat_map (fun c => land (i, fc_data c, fc_md c)) l.
Proof.
  intros i l. rewrite due_runs_flat. apply flat_map_ext. intro c. unfold fate, handler_for, land, export_effect. cbn [other relay_tbl d_inst d_index]. rewrite slot_nth, slot_map. destruct (len (fc_md c) <? 8); [reflexivity|].
  destruct (at_slot (exported i FNF) (number4 (fc_md c))) as [g|]; reflexivity.
Qed.
Lemma flat_map_ext_in : forall A B (f g : A -> list B) l, (forall x, In x l -> f x = g x) -> flat_map f l = flat_map g l.
Proof. intros A B f g l. induction l as [|a l IH]; intro E; [reflexivity|]. cbn [flat_map]. rewrite (E a (or_introl eq_refl)), IH; [reflexivity|]. intros x Hx. apply E. right. exact Hx. Qed.
Lemma host_effects : forall i l, (forall c, In c l -> wf (fc_md c)) -> flat_map land (flat_map passed_on (due_runs site (tbl i) Client l)) = flat_map (call_effect m exported i) l.
Proof.
  intros i l W. rewrite due_runs_flat, flat_flat. apply flat_map_ext_in. intros c Hc. unfold fate, handler_for, call_effect. cbn [other relay_tbl relay_site handler_metadata]. rewrite slot_nth, slot_map. destruct (N.ltb_spec (len (fc_md c)) 8) as [L|L]; [reflexivity|].
  destruct (at_slot (m_tabs m i FNF) (number4 (fc_md c))) as [d|] eqn:Sl; [|reflexivity]. cbn [option_map passed_on fr_handler fr_data fr_md]. cbn [flat_map]. rewrite app_nil_r. destruct (proj1 (proj2 Ok) i FNF d (slot_in _ _ _ _ Sl)) as [_ V]. apply land_dest; [exact V|apply W; exact Hc|exact L].
Qed.
Lemma ask_lands : forall a, match a with AskMesh _ _ (Some md) => wf md | _ => True end -> flat_map land (asked a) = ask_effect m exported a.
Proof.
  intros [x data md|i data md] W; unfold asked, ask_effect.
  - destruct (mesh_request m x) as [d|] eqn:Rq; [|destruct md as [b|]; [destruct (len b <? 8)|]; reflexivity]. cbn [flat_map]. rewrite app_nil_r. destruct md as [b|]; [|reflexivity]. destruct (proj2 (proj2 Ok) x d Rq) as [_ V]. destruct (N.ltb_spec (len b) 8) as [L|L].
    + unfold land. destruct (N.ltb_spec (len (be 4 (d_index d) ++ skipn 4 b)) 8) as [_|Q]; [reflexivity|]. rewrite len_app, be_len, len_skipn in Q. lia.
    + exact (land_dest _ _ _ V W L).
  - cbn [flat_map]. rewrite app_nil_r. reflexivity.
Qed.
Definition asks_wf (r : frelay) : Prop := forall a, In a (z_asks r) -> match a with AskMesh _ _ (Some md) => wf md | _ => True end.
Lemma reach_asks : forall r, frelay_reach m exported n r -> asks_wf r.
Proof.
  intros r R. induction R as [|r mv r' R IH A D]; [intros a []|]. destruct mv as [i mv|i j|a].
  - cbn [do_zmove] in D. destruct (nth_error (z_nets r) i); [|discriminate D]. destruct (own_fmove f mv); [|discriminate D]. destruct (fnet_move m exported (z_nets r) i mv); [|discriminate D]. injection D as <-. exact IH.
  - destruct (forward_cases _ _ _ _ D) as (st & ik & d & sid & data & md & pa & q & nets & _ & _ & _ & _ & As). unfold asks_wf. rewrite As. exact IH.
  - destruct A as [A _]. assert (Q : z_asks r' = z_asks r ++ [a]).
    { destruct a as [x data md|i data md]; cbn [do_zmove] in D.
      - destruct (mesh_request m x); [|injection D as <-; reflexivity]. destruct (dest_fire m exported (z_nets r) d data md); [|discriminate D]. injection D as <-. reflexivity.
      - destruct (fnet_move m exported (z_nets r) i (MFire Server data md)); [|discriminate D]. injection D as <-. reflexivity. }
    unfold asks_wf. rewrite Q. intros b Hb. apply in_app_iff in Hb. destruct Hb as [Hb|[<-|[]]]; [exact (IH b Hb)|]. destruct a as [x data [md|]|i data md]; try exact Logic.I. apply A.
Qed.
Lemma calls_wf : forall i st, fnet_reach site (tbl i) st -> forall X c, In c (fp_calls (fn_peer st X)) -> wf (fc_md c).
Proof. intros i st R X c Hc. destruct (reach_inv site (tbl i) (ftables_few i) st R) as (mm & seen & tf & I). destruct (fi_good _ _ _ _ _ _ I X c Hc) as [[_ (W & _)] _]. exact W. Qed.

Lemma sent_lands : forall r, zinv r -> asks_wf r -> Permutation (flat_map land (over sent r)) (over (fun i st => flat_map land (passed i st)) r ++ flat_map (ask_effect m exported) (z_asks r)).
Proof.
  intros r I W. rewrite (Permutation_flat_map land (zi_perm r I)), flat_map_app, Permutation_app_comm. unfold over at 1 2. rewrite over_flat. apply Permutation_app_head. rewrite flat_flat. rewrite (flat_map_ext_in _ _ _ (ask_effect m exported)); [reflexivity|]. intros a Ha. apply ask_lands. exact (W a Ha).
Qed.
Lemma sent_guest : forall r, flat_map land (over sent r) = over (fun i st => flat_map (run_effect i) (due_runs site (tbl i) Server (fp_calls (fn_peer st Server)))) r.
Proof.
  intro r. unfold over. rewrite over_flat. generalize 0%nat. induction (z_nets r) as [|st l IH]; intro k; [reflexivity|]. cbn [over_from]. rewrite IH, guest_effects. unfold sent. rewrite flat_of_map. reflexivity.
Qed.
Lemma at_most_once : forall r, frelay_reach m exported n r -> part (done r) (due m exported r).
Proof.
  intros r R. assert (I := reach_zinv r R). apply part_trans with (flat_map land (over sent r)).
  - rewrite sent_guest. unfold done, over. apply over_part. intros i st E. cbn [Nat.add]. apply part_flat. destruct (never_more site (tbl i) (ftables_few i) st (zi_reach r I i st E) Server) as [[more P] _]. exists more. exact P.
  - eapply part_trans; [apply part_perm; symmetry; exact (sent_lands r I (reach_asks r R))|]. unfold due. apply part_app; [|apply part_refl]. unfold over. apply over_part. intros i st E. cbn [Nat.add].
    rewrite <- (host_effects i) by (intros c Hc; exact (calls_wf i st (zi_reach r I i st E) Client c Hc)). apply part_flat. unfold passed. apply part_flat. destruct (never_more site (tbl i) (ftables_few i) st (zi_reach r I i st E) Client) as [[more P] _]. exists more. exact P.
Qed.
Lemma exactly_once : forall r, frelay_reach m exported n r -> frelay_rest r -> Permutation (due m exported r) (done r).
Proof.
  intros r R Z. assert (I := reach_zinv r R). unfold frelay_rest in Z. rewrite Forall_forall in Z. transitivity (flat_map land (over sent r)).
  - symmetry. rewrite (sent_lands r I (reach_asks r R)). unfold due. apply Permutation_app_tail. unfold over. apply over_perm. intros i st E. cbn [Nat.add].
    rewrite <- (host_effects i) by (intros c Hc; exact (calls_wf i st (zi_reach r I i st E) Client c Hc)). apply Permutation_flat_map. unfold passed. apply Permutation_flat_map. symmetry. apply (at_rest_all site (tbl i) (ftables_few i) st (zi_reach r I i st E) (Z st (nth_error_In _ _ E)) Client).
  - rewrite sent_guest. unfold done, over. apply over_perm. intros i st E. cbn [Nat.add]. apply Permutation_flat_map. apply (at_rest_all site (tbl i) (ftables_few i) st (zi_reach r I i st E) (Z st (nth_error_In _ _ E)) Server).
Qed.
Lemma refusals_flat : forall i l, due_refusals site (tbl i) Client l = flat_map (call_refusal m i) l.
Proof.
  intros i l. unfold due_refusals, rights. rewrite flat_of_map. apply flat_map_ext. intro c. unfold fate, handler_for, call_refusal. cbn [other relay_tbl]. rewrite slot_nth, slot_map. destruct (len (fc_md c) <? 8); [reflexivity|].
  destruct (at_slot (m_tabs m i FNF) (number4 (fc_md c))); reflexivity.
Qed.

(** ** Progress *)
Lemma fire_enabled : forall (nets : list fnet) i d md, (forall i st, nth_error nets i = Some st -> fnet_reach site (tbl i) st) -> Forall (fun st : fnet => len (fp_calls (fn_peer st Server)) < 2^62) nets -> (i < length nets)%nat -> sendable d md ->
  exists nets', fnet_move m exported nets i (MFire Server d md) = Some nets'.
Proof.
  intros nets i d md R Sp L Sd. destruct (nth_error nets i) as [st|] eqn:E; [|apply nth_error_None in E; lia]. rewrite Forall_forall in Sp.
  assert (Q := proj2 (proj2 (enabled_proof site (tbl i) (ftables_few i) st (R _ _ E))) Server d md (conj Sd (Sp st (nth_error_In _ _ E)))). unfold fnet_move. rewrite E. destruct (do_fmove site (tbl i) st (MFire Server d md)) as [st'|]; [eexists; reflexivity|contradiction].
Qed.
Lemma dest_enabled : forall (nets : list fnet) d data md, (forall i st, nth_error nets i = Some st -> fnet_reach site (tbl i) st) -> Forall (fun st : fnet => len (fp_calls (fn_peer st Server)) < 2^62) nets -> (d_inst d < length nets)%nat -> d_index d < 2^32 ->
  match md with Some b => sendable data b /\ 4 <= len b | None => sendable data [] end -> exists nets', dest_fire m exported nets d data md = Some nets'.
Proof.
  intros nets d data md R Sp L V Sd. unfold dest_fire. destruct md as [b|].
  - destruct Sd as [Sd Lb]. rewrite redirect_proof by assumption. apply fire_enabled; try assumption. apply sendable4; assumption.
  - cbn [redirect]. apply fire_enabled; assumption.
Qed.
Lemma forward_ok : forall r i j st t, zinv r -> spare r -> nth_error (z_nets r) i = Some st -> nth_error (fp_tasks (fn_peer st Server)) j = Some t -> own_fmove st (MFTask Server j) = false -> exists r', do_zmove m exported r (ZForward i j) = Some r'.
Proof.
  intros r i j st t [I1 I2 I3] Sp N0 T Ow. destruct (server_task i st j t (I2 _ _ N0) T) as [(f & ->)|(c & d & pa & Hc & Sd & L8 & Sl & ->)]; [cbn [own_fmove] in Ow; rewrite T in Ow; discriminate Ow|].
  cbn [do_zmove]. rewrite N0, T. assert (Q := proj1 (proj2 (enabled_proof site (tbl i) (ftables_few i) st (I2 _ _ N0))) Server j ltac:(apply nth_error_Some; congruence)).
  destruct (do_fmove site (tbl i) st (MFTask Server j)) as [st1|] eqn:D; [|contradiction]. assert (M : fnet_move m exported (z_nets r) i (MFTask Server j) = Some (put_nth (z_nets r) i st1)) by (unfold fnet_move; rewrite N0, D; reflexivity). rewrite M.
  assert (Mv := do_fmoved _ _ _ _ _ D). cbn [fmoved other] in Mv. destruct Mv as (C1 & _). destruct (proj1 (proj2 Ok) i FNF d (slot_in _ _ _ _ Sl)) as [V1 V2].
  destruct (dest_enabled (put_nth (z_nets r) i st1) d (fc_data c) (Some (fc_md c)) (put_reach _ _ _ _ (MFTask Server j) I2 N0 Logic.I D) (spare_put _ _ _ _ N0 (C1 Server) Sp)) as (nets' & ->); [rewrite RelayProofs.put_length; lia|exact V2|split; [exact Sd|lia]|]. eexists. reflexivity.
Qed.
Lemma ask_enabled : forall r a, zinv r -> spare r -> ask_ok m n a -> exists r', do_zmove m exported r (ZAsk a) = Some r'.
Proof.
  intros r [x data md|i data md] [I1 I2 I3] Sp A; cbn [do_zmove ask_ok] in *.
  - destruct (mesh_request m x) as [d|] eqn:Rq; [|eexists; reflexivity]. destruct (proj2 (proj2 Ok) x d Rq) as [V1 V2].
    destruct (dest_enabled (z_nets r) d data md I2 Sp) as (nets' & ->); [lia|exact V2| |eexists; reflexivity]. destruct md as [b|]; [|exact A]. destruct A as [A1 A2]. split; [exact A1|]. apply A2. discriminate.
  - destruct A as [A1 A2]. destruct (fire_enabled (z_nets r) i data md I2 Sp ltac:(lia) A2) as (nets' & ->). eexists. reflexivity.
Qed.
Lemma net_enabled : forall r i st mv, zinv r -> nth_error (z_nets r) i = Some st -> own_fmove st mv = true -> do_fmove site (tbl i) st mv <> None -> exists r', do_zmove m exported r (ZNet i mv) = Some r'.
Proof.
  intros r i st mv I N0 Ow D. cbn [do_zmove]. rewrite N0, Ow. unfold fnet_move. rewrite N0. destruct (do_fmove site (tbl i) st mv); [eexists; reflexivity|contradiction].
Qed.
Lemma goes : forall r, frelay_reach m exported n r -> spare r -> frelay_rest r \/ exists mv r', zallowed m n r mv /\ zinner mv = true /\ do_zmove m exported r mv = Some r'.
Proof.
  intros r R Sp. assert (I := reach_zinv r R).
  assert (K : forall i st, nth_error (z_nets r) i = Some st -> fat_rest st \/ exists mv r', zallowed m n r mv /\ zinner mv = true /\ do_zmove m exported r mv = Some r').
  { intros i st N0. assert (Ri := zi_reach r I i st N0). destruct (enabled_proof site (tbl i) (ftables_few i) st Ri) as (En1 & En2 & _).
    assert (One : forall s, (fn_wire st s = [] /\ fp_tasks (fn_peer st s) = []) \/ exists mv r', zallowed m n r mv /\ zinner mv = true /\ do_zmove m exported r mv = Some r').
    { intro s. destruct (fn_wire st s) as [|bs l] eqn:W.
      - destruct (fp_tasks (fn_peer st s)) as [|t l] eqn:T; [left; split; reflexivity|right].
        assert (E2 := En2 s 0%nat ltac:(rewrite T; cbn; lia)). destruct (own_fmove st (MFTask s 0)) eqn:Ow.
        + destruct (net_enabled r i st _ I N0 Ow E2) as [r' E]. exists (ZNet i (MFTask s 0)), r'. split; [intros x _; exact Logic.I|]. split; [reflexivity|exact E].
        + destruct s; [discriminate Ow|]. destruct (forward_ok r i 0%nat st t I Sp N0 ltac:(rewrite T; reflexivity) Ow) as [r' E]. exists (ZForward i 0), r'. split; [exact Sp|]. split; [reflexivity|exact E].
      - right. assert (E1 := En1 s ltac:(rewrite W; discriminate)). destruct (net_enabled r i st (MFReceive s) I N0 eq_refl E1) as [r' E]. exists (ZNet i (MFReceive s)), r'. split; [intros x _; exact Logic.I|]. split; [reflexivity|exact E]. }
    destruct (One Client) as [A|A]; [|right; exact A]. destruct (One Server) as [B|B]; [|right; exact B]. left. intros []; assumption. }
  assert (L : forall l : list fnet, (forall st, In st l -> fat_rest st \/ exists mv r', zallowed m n r mv /\ zinner mv = true /\ do_zmove m exported r mv = Some r') -> Forall fat_rest l \/ exists mv r', zallowed m n r mv /\ zinner mv = true /\ do_zmove m exported r mv = Some r').
  { induction l as [|a l IH]; intro F; [left; constructor|]. destruct (F a (or_introl eq_refl)) as [A|A]; [|right; exact A]. destruct IH as [B|B]; [intros x Hx; apply F; right; exact Hx|left; constructor; assumption|right; exact B]. }
  apply L. intros st Hs. destruct (In_nth_error _ _ Hs) as [i E]. exact (K i st E).
Qed.

Lemma runs_bound : forall i st, fnet_reach site (tbl i) st -> (length (fp_runs (fn_peer st Server)) <= length (fp_calls (fn_peer st Client)))%nat.
Proof.
  intros i st R. destruct (never_more site (tbl i) (ftables_few i) st R Client) as [[more P] _]. apply Permutation_length in P. rewrite app_length in P. cbn [other] in P.
  assert (Q : forall l, (length (due_runs site (tbl i) Client l) <= length l)%nat).
  { induction l as [|c l IH]; [apply Nat.le_refl|]. unfold due_runs, lefts in *. cbn [map flat_map]. rewrite app_length. destruct (fate site (tbl i) Client c); cbn [length]; lia. }
  assert (L := Q (fp_calls (fn_peer st Client))). lia.
Qed.
Lemma fire_left : forall i st data md st', sendable data md -> len (fp_calls (fn_peer st Server)) < 2^62 -> fnet_reach site (tbl i) st -> do_fmove site (tbl i) st (MFire Server data md) = Some st' -> fnet_left st' = (fnet_left st + 3)%nat.
Proof.
  intros i st data md st' Sd Sp R D. assert (R' := fn_move _ _ st _ st' R (conj Sd Sp : fallowed st (MFire Server data md)) D).
  assert (M := do_fmoved _ _ _ _ _ D). cbn [fmoved other] in M. destruct M as (M1 & M2 & M3 & sid & M4 & bs & FB & W1 & W2). unfold fnet_left, fwork, fwork_at. rewrite M1, M2, M3, W1, W2, map_app, list_sum_app. cbn [map list_sum fold_right].
  destruct (reach_inv site (tbl i) (ftables_few i) st' R') as (mm & seen & tf & I).
  destruct (fi_good _ _ _ _ _ _ I Server (mkFCall sid data md)) as [Gd _]; [rewrite M4; apply in_or_app; right; left; reflexivity|].
  assert (Wt := msg_weight (Req (mkFCall sid data md)) Gd). assert (Mb := msg_bytes (Req (mkFCall sid data md)) Gd). cbn [msg_frame] in Mb. assert (bs = on_line (Req (mkFCall sid data md))) by congruence. subst bs. rewrite Wt. lia.
Qed.
Lemma less : forall r mv r', frelay_reach m exported n r -> zallowed m n r mv -> zinner mv = true -> do_zmove m exported r mv = Some r' -> (fleft r' < fleft r)%nat.
Proof.
  intros r mv r' R A Z E. assert (I := reach_zinv r R). destruct mv as [i mv|i j|a]; [| |discriminate Z].
  - cbn [do_zmove zallowed zinner] in *. destruct (nth_error (z_nets r) i) as [st|] eqn:N0; [|discriminate E]. destruct (own_fmove st mv) eqn:Ow; [|discriminate E]. destruct (fnet_move m exported (z_nets r) i mv) as [nets|] eqn:M; [|discriminate E]. injection E as <-.
    destruct (fnet_move_some _ _ _ _ M) as (x & st' & N0' & D & ->). assert (x = st) by congruence. subst x. clear N0' M. unfold fleft. cbn [z_nets].
    assert (Q := RelayProofs.put_sum _ fnet_left (z_nets r) i st st' N0). assert (L := works_proof site (tbl i) (ftables_few i) st mv st' (zi_reach r I i st N0) Z D). destruct (own_keeps _ _ _ _ _ Ow D) as [_ K].
    assert (C : fp_calls (fn_peer st' Client) = fp_calls (fn_peer st Client)).
    { assert (M := do_fmoved _ _ _ _ _ D). destruct mv as [s d md|s|s k]; [discriminate Z| |]; cbn [fmoved] in M; [apply (M Client)|apply M]. }
    assert (LL : (fnet_left st' < fnet_left st)%nat) by (unfold fnet_left; rewrite K, C; lia). lia.
  - destruct (forward_cases _ _ _ _ E) as (st & ik & d & sid & data & md & pa & q & nets & N0 & T & M1 & M2 & As). clear E. destruct (server_task i st j _ (zi_reach r I i st N0) T) as [(f & Q)|(c & d' & pa' & Hc & Sd & L8 & Sl & Q)]; [discriminate Q|]. injection Q as -> <- -> -> -> _ _.
    destruct (fnet_move_some _ _ _ _ M1) as (x & st1 & N0' & D & ->). assert (x = st) by congruence. subst x. clear N0' M1. assert (Mv := do_fmoved _ _ _ _ _ D). cbn [fmoved other] in Mv. destruct Mv as (C1 & _ & l & El & R1). assert (l = [ARun FNF (inl d) (fc_sid c) (fc_data c) (fc_md c) pa q]) by congruence. subst l. cbn [flat_map runs_of app] in R1.
    destruct (proj1 (proj2 Ok) i FNF d (slot_in _ _ _ _ Sl)) as [V1 V2]. cbn [zallowed] in A.
    assert (Rn := put_reach _ _ _ _ (MFTask Server j) (zi_reach r I) N0 Logic.I D). assert (Spn := spare_put _ _ _ _ N0 (C1 Server) A).
    unfold dest_fire in M2. rewrite redirect_proof in M2 by (try assumption; lia). destruct (fnet_move_some _ _ _ _ M2) as (sd & sd' & N1 & D2 & Er). unfold fleft. rewrite Er.
    assert (Q1 := RelayProofs.put_sum _ fnet_left (z_nets r) i st st1 N0). assert (Q2 := RelayProofs.put_sum _ fnet_left _ _ _ sd' N1).
    assert (S4 : sendable (fc_data c) (be 4 (d_index d) ++ skipn 4 (fc_md c))) by (apply sendable4; [lia|exact Sd]).
    assert (F := fire_left (d_inst d) sd _ _ sd' S4 ltac:(rewrite Forall_forall in Spn; exact (Spn sd (nth_error_In _ _ N1))) (Rn _ _ N1) D2).
    assert (L := works_proof site (tbl i) (ftables_few i) st (MFTask Server j) st1 (zi_reach r I i st N0) eq_refl D). assert (B := runs_bound i st1 (Rn i st1 (RelayProofs.put_same _ _ _ _ _ N0))).
    rewrite C1 in B. rewrite R1, app_length in B. cbn [length] in B. assert (LL : (fnet_left st1 + 4 < fnet_left st)%nat) by (unfold fnet_left; rewrite C1, R1, app_length; cbn [length]; lia). lia.
Qed.
End FnfRelay.
