(** C41: request/response calls between two peers. *)
From Coq Require Import List NArith ZArith Bool Lia.
From Coq Require Import ZifyBool ZifyNat ZifyN.
From Verif Require Import Base BaseLemmas FramesModel FramesSpec InvokeModel LookupModel StreamIdModel MonoModel ProxyModel DispatchModel DispatchSpec CallModel CallSpec CallInv CallProofs.
Import ListNotations.
Open Scope N_scope.

(** ** What the caller sees *)

(** At every moment of every execution of two peers, whatever calls are under way in both directions and in whatever order they are answered: the callbacks
    of a call have seen nothing, or exactly one thing, which is the outcome of the run of the handler it named with its own payload, or the error that says
    there is none. *)
Theorem C41_outcome : forall H (w : side -> site) (tbl : side -> ikind -> list (option H)), (forall s, few (tbl s)) ->
  forall st, net_reach w tbl st -> forall s k c, nth_error (p_calls (n_peer st s)) k = Some c ->
  results c = [] \/ exists o, results c = [o] /\ outcome_for w tbl st s c o.
Proof.
  intros H w tbl F st R s k c E. destruct (reach_ninv w tbl F st R) as [m I]. assert (V := ni_view _ _ _ _ I s). unfold view in V.
  destruct (i_proc _ _ _ _ _ _ _ _ _ V _ _ E) as [[_ P]|[[_ P]|(o & _ & P & O)]]; unfold results; rewrite P; [left; reflexivity|left; reflexivity|right].
  exists o. split; [reflexivity|exact O].
Qed.
Print Assumptions C41_outcome.

(** Handlers run only for subscribed calls, for each call at most once. *)
Theorem C41_one_run : forall H (w : side -> site) (tbl : side -> ikind -> list (option H)), (forall s, few (tbl s)) ->
  forall st, net_reach w tbl st -> forall s, NoDup (map c_sid (p_calls (n_peer st s))) /\ NoDup (map r_sid (p_runs (n_peer st (other s)))) /\
  forall r, In r (p_runs (n_peer st (other s))) -> exists c, In c (p_calls (n_peer st s)) /\ c_subscribed c = true /\ run_for w tbl s c r.
Proof.
  intros H w tbl F st R s. destruct (reach_ninv w tbl F st R) as [m I]. assert (V := ni_view _ _ _ _ I s). unfold view in V.
  assert (Nc : NoDup (map c_sid (p_calls (n_peer st s)))).
  { apply NoDup_nth_error. intros i j Li E. rewrite map_length in Li. rewrite !nth_error_map in E. destruct (nth_error (p_calls (n_peer st s)) i) as [c|] eqn:Ei; [|apply nth_error_None in Ei; lia].
    destruct (nth_error (p_calls (n_peer st s)) j) as [d|] eqn:Ej; [|discriminate E]. cbn in E. assert (Q : c_sid c = c_sid d) by congruence. exact (proj1 (call_unique _ _ _ _ _ _ _ _ _ V _ _ _ _ Ei Ej Q)). }
  split; [exact Nc|]. split.
  - apply (NoDup_count_occ N.eq_dec). intro x. destruct (in_dec N.eq_dec x (map r_sid (p_runs (n_peer st (other s))))) as [Hx|Hx]; [|apply count_occ_not_In with (eq_dec := N.eq_dec) in Hx; lia].
    apply in_map_iff in Hx. destruct Hx as (r & <- & Hr). destruct (i_run _ _ _ _ _ _ _ _ _ V _ Hr) as (k & c & E & Rf). assert (O := i_once _ _ _ _ _ _ _ _ _ V _ _ E).
    replace (r_sid r) with (c_sid c) by (symmetry; apply Rf). assert (C : forall l : list (run H), count_occ N.eq_dec (map r_sid l) (c_sid c) = cnt r_sid (c_sid c) l).
    { clear. induction l as [|r l IH]; [reflexivity|]. rewrite cnt_cons. cbn [map count_occ]. destruct (N.eq_dec (r_sid r) (c_sid c)) as [Q|Q]; destruct (N.eqb_spec (r_sid r) (c_sid c)); try contradiction; cbn [b2n]; lia. }
    rewrite C. destruct (c_subscribed c); cbn [b2n] in O; lia.
  - intros r Hr. destruct (i_run _ _ _ _ _ _ _ _ _ V _ Hr) as (k & c & E & Rf). exists c. split; [exact (nth_error_In _ _ E)|]. split; [|exact Rf].
    assert (O := i_once _ _ _ _ _ _ _ _ _ V _ _ E). assert (C := cnt_in r_sid r _ Hr). replace (r_sid r) with (c_sid c) in C by (symmetry; apply Rf). destruct (c_subscribed c); [reflexivity|]. cbn [b2n] in O. lia.
Qed.
Print Assumptions C41_one_run.

(** When nothing is under way every subscribed call has its one outcome, and the others have none. *)
Theorem C41_at_rest : forall H (w : side -> site) (tbl : side -> ikind -> list (option H)), (forall s, few (tbl s)) ->
  forall st, net_reach w tbl st -> at_rest st -> forall s c, In c (p_calls (n_peer st s)) ->
  if c_subscribed c then exists o, results c = [o] /\ outcome_for w tbl st s c o else results c = [].
Proof.
  intros H w tbl F st R A s c Hc. destruct (reach_ninv w tbl F st R) as [m I]. assert (V := ni_view _ _ _ _ I s). unfold view in V.
  destruct (In_nth_error _ _ Hc) as [k E]. assert (Q := i_count _ _ _ _ _ _ _ _ _ V _ _ E).
  destruct (A s) as (A1 & _). destruct (A (other s)) as (B1 & B2 & B3). rewrite (ni_wire _ _ _ _ I) in A1, B1. apply map_eq_nil in A1. apply map_eq_nil in B1.
  assert (O : open_runs (p_runs (n_peer st (other s))) = []).
  { unfold open_runs. clear - B3. induction B3 as [|r l N0 _ IH]; [reflexivity|]. cbn [filter]. destruct (r_out r); [exact IH|contradiction]. }
  rewrite A1, B1, B2, O in Q. cbn [reqs reps flat_map] in Q. rewrite !cnt_nil in Q. cbn [Nat.add] in Q.
  destruct (i_proc _ _ _ _ _ _ _ _ _ V _ _ E) as [[S P]|[[S P]|(o & S & P & Oc)]]; rewrite S in *; unfold results, finished in *.
  - rewrite P. reflexivity.
  - unfold results in Q. rewrite P in Q. discriminate Q.
  - exists o. rewrite P. split; [reflexivity|exact Oc].
Qed.
Print Assumptions C41_at_rest.

(** ** Nothing gets stuck *)

(** User code can always call and subscribe; a dispatcher takes any frame that has come, without panic; a goroutine always goes on; a mono can conclude with
    anything a frame can carry. *)
Theorem C41_no_panic : forall H (w : side -> site) (tbl : side -> ikind -> list (option H)), (forall s, few (tbl s)) ->
  forall st, net_reach w tbl st -> forall s,
  (forall data md, sendable data md -> len (p_calls (n_peer st s)) < 2^30 -> do_move w tbl st (MCall s data md) <> None) /\
  (forall k c, nth_error (p_calls (n_peer st s)) k = Some c -> c_subscribed c = false -> do_move w tbl st (MSubscribe s k) <> None) /\
  (n_wire st s <> [] -> do_move w tbl st (MReceive s) <> None) /\
  (forall i, (i < length (p_tasks (n_peer st s)))%nat -> do_move w tbl st (MTask s i) <> None) /\
  (forall i r o, nth_error (p_runs (n_peer st s)) i = Some r -> r_out r = None -> sendable_out o -> do_move w tbl st (MConclude s i o) <> None).
Proof.
  intros H w tbl F st R s. destruct (reach_ninv w tbl F st R) as [m I]. split; [|split; [|split; [|split]]].
  - intros data md Sd L. destruct (m_call w tbl F st m s data md I Sd L) as (x & -> & _). discriminate.
  - intros k c E Sb. destruct (m_subscribe w tbl st m s k c I E Sb) as (x & m' & -> & _). discriminate.
  - intro Ne. destruct (m_receive w tbl F st m s I Ne) as (x & m' & -> & _). discriminate.
  - intros i L. destruct (nth_error (p_tasks (n_peer st s)) i) as [t|] eqn:E; [|apply nth_error_None in E; lia]. destruct (m_task w tbl F st m s i t I E) as (x & m' & -> & _). discriminate.
  - intros i r o E Ro So. destruct (m_conclude w tbl F st m s i r o I E Ro So) as (x & m' & -> & _). discriminate.
Qed.
Print Assumptions C41_no_panic.

(** Each move other than user code's calls brings rest nearer; unless at rest there is one. *)
Theorem C41_progress : forall H (w : side -> site) (tbl : side -> ikind -> list (option H)), (forall s, few (tbl s)) ->
  forall st, net_reach w tbl st ->
  (forall m st', allowed st m -> inner m = true -> do_move w tbl st m = Some st' -> (work st' < work st)%nat) /\
  (at_rest st \/ exists m st', allowed st m /\ inner m = true /\ do_move w tbl st m = Some st').
Proof.
  intros H w tbl F st R. destruct (reach_ninv w tbl F st R) as [m I]. split.
  - intros mv st' A In0 D. destruct (move_inv w tbl F st m mv st' I A D) as (m' & _ & L). exact (L In0).
  - assert (D : forall s, (n_wire st s = [] /\ p_tasks (n_peer st s) = [] /\ Forall (fun r => r_out r <> None) (p_runs (n_peer st s))) \/ exists mv st', allowed st mv /\ inner mv = true /\ do_move w tbl st mv = Some st').
    { intro s. destruct (n_wire st s) as [|b l] eqn:W.
      - destruct (p_tasks (n_peer st s)) as [|t l] eqn:T.
        + destruct (existsb (fun r => match r_out r with None => true | _ => false end) (p_runs (n_peer st s))) eqn:X.
          * right. apply existsb_exists in X. destruct X as (r & Hr & Ro). destruct (In_nth_error _ _ Hr) as [i E]. assert (Ro' : r_out r = None) by (destruct (r_out r); [discriminate Ro|reflexivity]).
            destruct (m_conclude w tbl F st m s i r (inr []) I E Ro') as (x & m' & D & _); [reflexivity|]. exists (MConclude s i (inr [])), x. split; [reflexivity|]. split; [reflexivity|exact D].
          * left. split; [reflexivity|]. split; [reflexivity|]. apply Forall_forall. intros r Hr Q. assert (Y : existsb (fun r => match r_out r with None => true | _ => false end) (p_runs (n_peer st s)) = true) by (apply existsb_exists; exists r; rewrite Q; auto). congruence.
        + right. destruct (m_task w tbl F st m s 0 t I) as (x & m' & D & _); [rewrite T; reflexivity|]. exists (MTask s 0), x. split; [exact Logic.I|]. split; [reflexivity|exact D].
      - right. destruct (m_receive w tbl F st m s I) as (x & m' & D & _); [rewrite W; discriminate|]. exists (MReceive s), x. split; [exact Logic.I|]. split; [reflexivity|exact D]. }
    destruct (D Client) as [D1|D1]; [|right; exact D1]. destruct (D Server) as [D2|D2]; [|right; exact D2]. left. intros [|]; assumption.
Qed.
Print Assumptions C41_progress.

(** So whatever has happened, with user code making no further calls and all handlers concluding, any way of going on ends with every subscribed call answered. *)
Inductive goes_on {H} (w : side -> site) (tbl : side -> ikind -> list (option H)) : nat -> net H -> net H -> Prop :=
| g_stay : forall st, goes_on w tbl 0 st st
| g_move : forall n st m st' st'', allowed st m -> inner m = true -> do_move w tbl st m = Some st' -> goes_on w tbl n st' st'' -> goes_on w tbl (S n) st st''.
Theorem C41_all_answered : forall H (w : side -> site) (tbl : side -> ikind -> list (option H)), (forall s, few (tbl s)) ->
  forall st, net_reach w tbl st ->
  (forall n st', goes_on w tbl n st st' -> (n <= work st)%nat /\ net_reach w tbl st') /\
  (exists n st', goes_on w tbl n st st' /\ at_rest st').
Proof.
  intros H w tbl F st R. split.
  - intros n st' G. revert R. induction G as [st|n st m st' st'' A In0 D G IH]; intro R; [split; [apply Nat.le_0_l|exact R]|].
    assert (L := proj1 (C41_progress H w tbl F st R) m st' A In0 D). destruct (IH (n_move w tbl st m st' R A D)) as [L' R']. split; [lia|exact R'].
  - remember (work st) as k eqn:K. assert (Le : (work st <= k)%nat) by lia. clear K. revert st R Le. induction k as [|k IH]; intros st R Le; destruct (C41_progress H w tbl F st R) as [P [A|(m & st' & A & In0 & D)]].
    + exists 0%nat, st. split; [constructor|exact A].
    + assert (L := P m st' A In0 D). lia.
    + exists 0%nat, st. split; [constructor|exact A].
    + assert (L := P m st' A In0 D). destruct (IH st' (n_move w tbl st m st' R A D)) as (n & st'' & G & Z); [lia|]. exists (S n), st''. split; [exact (g_move w tbl n st m st' st'' A In0 D G)|exact Z].
Qed.
Print Assumptions C41_all_answered.

(** ** An execution *)
Definition ex_w (s : side) : site := match s with Client => Guest | Server => Host end.
Definition ex_tbl (s : side) (k : ikind) : list (option N) :=
  match s, k with Client, RR => [Some 70] | Server, RR => [Some 80; None; Some 81] | _, _ => [] end.
Lemma ex_few : forall s, few (ex_tbl s).
Proof. intros [|] [| | |]; reflexivity. Qed.
(** Metadata naming a handler, and a byte more. *)
Definition to (n x : N) : bytes := [0; 0; 0; n; 0; 0; 0; 0; x].
Definition ex_calls : list move :=
  [MCall Client [1; 2] (to 0 9); MCall Client [3] (to 2 8); MCall Server [4] (to 0 7); MCall Client [5] (to 1 6); MCall Client [6] [0; 0]; MCall Client [7] (to 0 5);
   MSubscribe Client 1; MSubscribe Client 0; MReceive Server; MSubscribe Server 0; MReceive Client; MReceive Server; MSubscribe Client 2; MSubscribe Client 3;
   MTask Server 1; MTask Server 0; MTask Client 0; MReceive Server; MReceive Server].
Definition ex_rest : list move :=
  [MConclude Client 0 (inr [55]); MTask Server 1; MConclude Server 1 (inl ([44], [45])); MTask Server 0; MConclude Server 0 (inl ([], [46]));
   MReceive Client; MReceive Client; MReceive Client; MReceive Client; MReceive Server].

Definition ok_move (st : net N) (m : move) : bool :=
  match m with
  | MCall s data md => wfb md && (len md <? 2^24) && (len md + len data <? 2^32 - 13) && (len (p_calls (n_peer st s)) <? 2^30)
  | MSubscribe s k => match nth_error (p_calls (n_peer st s)) k with Some c => negb (c_subscribed c) | None => false end
  | MConclude _ _ (inl (data, md)) => (len md <? 2^24) && (len md + len data <? 2^32 - 13)
  | MConclude _ _ (inr msg) => len msg <? 2^32 - 13
  | _ => true
  end.
Fixpoint ok_moves (st : net N) (ms : list move) : option (net N) :=
  match ms with
  | [] => Some st
  | m :: ms' => if ok_move st m then match do_move ex_w ex_tbl st m with Some st' => ok_moves st' ms' | None => None end else None
  end.
Lemma ok_moves_reach : forall ms st st', net_reach ex_w ex_tbl st -> ok_moves st ms = Some st' -> net_reach ex_w ex_tbl st'.
Proof.
  induction ms as [|m ms IH]; intros st st' R E; cbn [ok_moves] in E; [assert (st = st') by congruence; subst st'; exact R|].
  destruct (ok_move st m) eqn:O; [|discriminate E]. destruct (do_move ex_w ex_tbl st m) as [x|] eqn:D; [|discriminate E]. apply (IH x st'); [|exact E].
  apply (n_move _ _ st m x R); [|exact D]. clear - O. destruct m as [s data md|s k|s|s i|s i [[data md]|msg]]; cbn [ok_move allowed] in *; try exact Logic.I.
  - apply andb_prop in O as [O L]. apply andb_prop in O as [O F]. apply andb_prop in O as [W L']. split; [|apply N.ltb_lt; exact L]. split; [apply wfb_wf; exact W|]. split; [apply N.ltb_lt; exact L'|apply N.ltb_lt; exact F].
  - intros c E. rewrite E in O. destruct (c_subscribed c); [discriminate O|reflexivity].
  - apply andb_prop in O as [A B]. split; apply N.ltb_lt; assumption.
  - apply N.ltb_lt. exact O.
Qed.

(** Calls in both directions, answered out of order; one names no handler, one has too little metadata, one is never subscribed. *)
Example C41_ex : exists st st', net_reach ex_w ex_tbl st /\ net_reach ex_w ex_tbl st' /\ at_rest st' /\
  map results (p_calls (n_peer st Client)) = [[]; []; []; []; []] /\ work st = 12%nat /\
  map results (p_calls (n_peer st' Client)) = [[inl ([], [46])]; [inl ([44], [45])]; [inr not_found]; [inr invalid_metadata]; []] /\
  map results (p_calls (n_peer st' Server)) = [[inr [55]]] /\
  map (fun r => (r_handler r, r_data r, r_md r)) (p_runs (n_peer st' Server)) = [(80, [1; 2], to 0 9); (81, [3], to 2 8)] /\
  map (fun r => (r_handler r, r_data r, r_md r)) (p_runs (n_peer st' Client)) = [(70, [4], [7])].
Proof.
  destruct (ok_moves net_create ex_calls) as [st|] eqn:X; [|vm_compute in X; discriminate X]. assert (R := ok_moves_reach _ _ _ (n_init _ _) X).
  destruct (ok_moves st ex_rest) as [st'|] eqn:Y; [|exfalso; vm_compute in X; injection X as <-; vm_compute in Y; discriminate Y]. assert (R' := ok_moves_reach _ _ _ R Y).
  exists st, st'. split; [exact R|]. split; [exact R'|]. vm_compute in X. injection X as <-. vm_compute in Y. injection Y as <-. split.
  - intros [|]; vm_compute; (split; [reflexivity|]; split; [reflexivity|]); repeat constructor; discriminate.
  - vm_compute. repeat split.
Qed.

(** ** Monos subscribed twice *)

(** Subscribing the mono of a call twice is not one call: the request is sent twice and its handler runs twice, while the callbacks given first never see
    anything. *)
Theorem C41_twice_refuted : exists ms st c, do_moves ex_w ex_tbl net_create ms = Some st /\ at_rest st /\ p_calls (n_peer st Client) = [c] /\
  map r_sid (p_runs (n_peer st Server)) = [c_sid c; c_sid c] /\ map r_out (p_runs (n_peer st Server)) = [Some (inl ([1], [])); Some (inl ([2], []))] /\
  map snd (p_subs (c_proc c)) = [[]; [inl ([1], [])]].
Proof.
  set (ms := [MCall Client [1; 2] (to 0 9); MSubscribe Client 0; MSubscribe Client 0; MReceive Server; MReceive Server; MTask Server 0; MTask Server 0;
    MConclude Server 0 (inl ([1], [])); MConclude Server 1 (inl ([2], [])); MReceive Client; MReceive Client]).
  destruct (do_moves ex_w ex_tbl net_create ms) as [st|] eqn:X; [|vm_compute in X; discriminate X]. exists ms, st. vm_compute in X. injection X as <-. eexists. split; [reflexivity|]. split; [|vm_compute; repeat split].
  intros [|]; vm_compute; (split; [reflexivity|]; split; [reflexivity|]); repeat constructor; discriminate.
Qed.
Print Assumptions C41_twice_refuted.
