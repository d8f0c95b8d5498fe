(** C81: request/response calls between a Go host and a Rust guest. *)
From Coq Require Import List NArith ZArith Bool Lia.
From Coq Require Import ZifyBool ZifyNat ZifyN.
From Verif Require Import Base BaseLemmas FramesModel FramesSpec InvokeModel LookupModel StreamIdModel StreamIdSpec MonoModel ProxyModel DispatchModel DispatchSpec CallModel CallSpec CallInv CallProofs.
From Verif Require Import CustomSpec RustFramesModel RustFramesSpec RustFramesProofs RustOpsModel MixInv RustCallModel RustCallSpec RustCallProofs.
Import ListNotations.
Open Scope N_scope.

(** ** What the callers see *)

(** Whatever calls are under way in both directions and in whatever order they are answered: the callbacks of a call of the host have seen nothing, or exactly one
    thing, which is the outcome of the guest's run of the handler at the index it named, with its own payload, or the error that says there is none. *)
Theorem C81_host_calls : forall Hg Hr (go_tbl : ikind -> list (option Hg)) (rust_tbl : list Hr), few go_tbl ->
  forall st, x_reach go_tbl rust_tbl st -> forall k c, nth_error (p_calls (x_go st)) k = Some c ->
  results c = [] \/ exists o, results c = [o] /\ host_call_outcome rust_tbl st c o.
Proof.
  intros Hg Hr gt rt F st R k c E. destruct (x_reach_inv gt rt F st R) as (mg & mr & I).
  destruct (x_gshape _ _ _ _ _ I _ _ E) as [[S P]|[[S P]|(o & S & P)]]; unfold results; rewrite P; [left; reflexivity|left; reflexivity|right].
  exists o. split; [reflexivity|]. assert (Dn : a_st (abs_go c) = Done o) by (unfold abs_go, results; cbn [a_st]; rewrite S, P; reflexivity).
  destruct (d_done _ _ _ _ _ _ _ _ _ _ _ _ (x_gdir _ _ _ _ _ I) _ _ _ (nth_abs _ _ abs_go _ _ _ E) Dn) as (o' & C & ->). exact C.
Qed.
Print Assumptions C81_host_calls.

(** A call of the guest waits, or holds what it is told of the outcome of the host's run of the handler it named, or of the host's refusal. *)
Theorem C81_guest_calls : forall Hg Hr (go_tbl : ikind -> list (option Hg)) (rust_tbl : list Hr), few go_tbl ->
  forall st, x_reach go_tbl rust_tbl st -> forall k c, nth_error (rs_calls (x_rust st)) k = Some c ->
  rc_res c = RPending \/ exists x, rc_res c = RGot x /\ guest_call_outcome go_tbl st c x.
Proof.
  intros Hg Hr gt rt F st R k c E. destruct (x_reach_inv gt rt F st R) as (mg & mr & I). destruct (x_rshape _ _ _ _ _ I _ _ E) as [_ Sh].
  assert (D := d_done _ _ _ _ _ _ _ _ _ _ _ _ (x_rdir _ _ _ _ _ I) _ _ (match rc_res c with RGot (inl v) => inl v | RGot (inr (_, m)) => inr m | _ => inr [] end) (nth_abs _ _ abs_rust _ _ _ E)).
  destruct Sh as [P|[(v & P)|(m & P)]]; [left; exact P|right|right]; unfold abs_rust in D; cbn [a_st] in D; rewrite P in D; destruct (D eq_refl) as (o & C & Q); eexists; (split; [exact P|]); exists o; (split; [destruct o as [w|[|b e]]; cbn in Q |- *; congruence|]).
  - destruct C as [C|[Pk C]]; [left|right; split; [apply pick_g_none; exact Pk|exact C]]. destruct C as (r & A & (B1 & B2 & B3) & C). exists r. split; [exact A|]. split; [|exact C]. split; [exact B1|]. split; [apply pick_g_some; exact B2|exact B3].
  - destruct C as [C|[Pk C]]; [left|right; split; [apply pick_g_none; exact Pk|exact C]]. destruct C as (r & A & (B1 & B2 & B3) & C). exists r. split; [exact A|]. split; [|exact C]. split; [exact B1|]. split; [apply pick_g_some; exact B2|exact B3].
Qed.
Print Assumptions C81_guest_calls.

(** Handlers run only for calls made (and subscribed, on the host), for each at most once, on both sides. *)
Lemma runs_once : forall H pick refuse given shown idk ok okout calls reqs tasks (runs : list (run H)) reps, dinv pick refuse given shown idk ok okout calls reqs tasks runs reps -> NoDup (map r_sid runs).
Proof.
  intros H pick refuse given shown idk ok okout calls reqs tasks runs reps V.
  apply (NoDup_count_occ N.eq_dec). intro x. destruct (in_dec N.eq_dec x (map r_sid runs)) as [Hx|Hx]; [|apply count_occ_not_In with (eq_dec := N.eq_dec) in Hx; lia].
  apply in_map_iff in Hx. destruct Hx as (r & <- & Hr0). destruct (d_run _ _ _ _ _ _ _ _ _ _ _ _ V _ Hr0) as (k & c & E & Rf). assert (O := d_once _ _ _ _ _ _ _ _ _ _ _ _ V _ _ E).
  replace (r_sid r) with (a_sid c) by (symmetry; apply Rf). assert (C : forall l : list (run H), count_occ N.eq_dec (map r_sid l) (a_sid c) = cnt r_sid (a_sid c) l).
  { clear. induction l as [|r l IH]; [reflexivity|]. rewrite cnt_cons. cbn [map count_occ]. destruct (N.eq_dec (r_sid r) (a_sid c)) as [Q|Q]; destruct (N.eqb_spec (r_sid r) (a_sid c)); try contradiction; cbn [b2n]; lia. }
  rewrite C. destruct (started (a_st c)); cbn [b2n] in O; lia.
Qed.
Theorem C81_one_run : forall Hg Hr (go_tbl : ikind -> list (option Hg)) (rust_tbl : list Hr), few go_tbl ->
  forall st, x_reach go_tbl rust_tbl st ->
  NoDup (map r_sid (rs_runs (x_rust st))) /\ NoDup (map r_sid (p_runs (x_go st))) /\
  (forall r, In r (rs_runs (x_rust st)) -> exists c, In c (p_calls (x_go st)) /\ c_subscribed c = true /\ guest_run_for rust_tbl c r) /\
  (forall r, In r (p_runs (x_go st)) -> exists c, In c (rs_calls (x_rust st)) /\ host_run_for go_tbl c r).
Proof.
  intros Hg Hr gt rt F st R. destruct (x_reach_inv gt rt F st R) as (mg & mr & I).
  split; [exact (runs_once _ _ _ _ _ _ _ _ _ _ _ _ _ (x_gdir _ _ _ _ _ I))|]. split; [exact (runs_once _ _ _ _ _ _ _ _ _ _ _ _ _ (x_rdir _ _ _ _ _ I))|]. split.
  - intros r Hr0. destruct (d_run _ _ _ _ _ _ _ _ _ _ _ _ (x_gdir _ _ _ _ _ I) _ Hr0) as (k & y & Ey & Rf). assert (O := d_once _ _ _ _ _ _ _ _ _ _ _ _ (x_gdir _ _ _ _ _ I) _ _ Ey).
    assert (C := cnt_in r_sid r _ Hr0). replace (r_sid r) with (a_sid y) in C by (symmetry; apply Rf). destruct (abs_nth _ _ abs_go _ _ _ Ey) as (c & E & ->).
    exists c. split; [exact (nth_error_In _ _ E)|]. split; [|exact Rf]. cbn [abs_go a_sid a_st] in *. destruct (c_subscribed c); [reflexivity|]. cbn [b2n started] in O. lia.
  - intros r Hr0. destruct (d_run _ _ _ _ _ _ _ _ _ _ _ _ (x_rdir _ _ _ _ _ I) _ Hr0) as (k & y & Ey & Rf). destruct (abs_nth _ _ abs_rust _ _ _ Ey) as (c & E & ->).
    exists c. split; [exact (nth_error_In _ _ E)|]. destruct Rf as (A & B & C). split; [exact A|]. split; [apply pick_g_some; exact B|exact C].
Qed.
Print Assumptions C81_one_run.

(** When nothing is under way every call of the guest and every subscribed call of the host has its one outcome, and the others have none. *)
Theorem C81_at_rest : forall Hg Hr (go_tbl : ikind -> list (option Hg)) (rust_tbl : list Hr), few go_tbl ->
  forall st, x_reach go_tbl rust_tbl st -> x_rest st ->
  (forall c, In c (p_calls (x_go st)) -> if c_subscribed c then exists o, results c = [o] /\ host_call_outcome rust_tbl st c o else results c = []) /\
  (forall c, In c (rs_calls (x_rust st)) -> exists x, rc_res c = RGot x /\ guest_call_outcome go_tbl st c x).
Proof.
  intros Hg Hr gt rt F st R (A1 & A2 & A3 & A4 & A5 & A6). destruct (x_reach_inv gt rt F st R) as (mg & mr & I).
  assert (O : forall H (l : list (run H)), Forall (fun r => r_out r <> None) l -> open_runs l = []).
  { intros H l A. unfold open_runs. induction A as [|r l N0 _ IH]; [reflexivity|]. cbn [filter]. destruct (r_out r); [exact IH|contradiction]. }
  rewrite (x_tog _ _ _ _ _ I) in A1. rewrite (x_tor _ _ _ _ _ I) in A2. apply map_eq_nil in A1. apply map_eq_nil in A2. split.
  - intros c Hc. destruct (In_nth_error _ _ Hc) as [k E]. assert (Q := d_count _ _ _ _ _ _ _ _ _ _ _ _ (x_gdir _ _ _ _ _ I) _ _ (nth_abs _ _ abs_go _ _ _ E)).
    rewrite A1, A2, A4, (O _ _ A6) in Q. cbn [reqs reps flat_map map] in Q. rewrite !cnt_nil in Q. cbn [Nat.add abs_go a_st] in Q.
    destruct (C81_host_calls _ _ gt rt F st R _ _ E) as [Z|Z].
    + rewrite Z in *. destruct (c_subscribed c); [discriminate Q|reflexivity].
    + destruct (c_subscribed c) eqn:Sb; [exact Z|]. destruct Z as (o & Z & _). destruct (x_gshape _ _ _ _ _ I _ _ E) as [[_ P]|[[S _]|(o' & S & _)]]; [|congruence|congruence]. unfold results in Z. rewrite P in Z. discriminate Z.
  - intros c Hc. destruct (In_nth_error _ _ Hc) as [k E]. assert (Q := d_count _ _ _ _ _ _ _ _ _ _ _ _ (x_rdir _ _ _ _ _ I) _ _ (nth_abs _ _ abs_rust _ _ _ E)).
    rewrite A1, A2, A3, (O _ _ A5) in Q. cbn [reqs reps flat_map map] in Q. rewrite !cnt_nil in Q. cbn [Nat.add abs_rust a_st] in Q.
    destruct (C81_guest_calls _ _ gt rt F st R _ _ E) as [Z|Z]; [rewrite Z in Q; discriminate Q|exact Z].
Qed.
Print Assumptions C81_at_rest.

(** ** Nothing gets stuck *)

(** Whatever is possible happens without panic on either side. *)
Theorem C81_no_panic : forall Hg Hr (go_tbl : ikind -> list (option Hg)) (rust_tbl : list Hr), few go_tbl ->
  forall st, x_reach go_tbl rust_tbl st -> forall mv, x_allowed st mv -> x_enabled st mv -> x_move go_tbl rust_tbl st mv <> None.
Proof.
  intros Hg Hr gt rt F st R mv A E. destruct (x_reach_inv gt rt F st R) as (mg & mr & I). destruct (x_goes gt rt F st mg mr mv I A E) as (st' & _ & _ & -> & _). discriminate.
Qed.
Print Assumptions C81_no_panic.

(** Each move other than the callers' brings rest nearer; unless at rest there is one. *)
Theorem C81_progress : forall Hg Hr (go_tbl : ikind -> list (option Hg)) (rust_tbl : list Hr), few go_tbl ->
  forall st, x_reach go_tbl rust_tbl st ->
  (forall m st', x_allowed st m -> x_inner m = true -> x_move go_tbl rust_tbl st m = Some st' -> (x_work st' < x_work st)%nat) /\
  (x_rest st \/ exists m st', x_allowed st m /\ x_inner m = true /\ x_move go_tbl rust_tbl st m = Some st').
Proof.
  intros Hg Hr gt rt F st R. destruct (x_reach_inv gt rt F st R) as (mg & mr & I). split.
  - intros mv st' A In0 D. destruct (x_keeps gt rt F st mg mr mv st' I A D) as (_ & _ & _ & L). exact (L In0).
  - assert (Go : forall mv, x_allowed st mv -> x_inner mv = true -> x_enabled st mv -> exists m st', x_allowed st m /\ x_inner m = true /\ x_move gt rt st m = Some st').
    { intros mv A In0 E. destruct (x_goes gt rt F st mg mr mv I A E) as (st' & _ & _ & D & _). exists mv, st'. auto. }
    assert (Rn : forall H (l : list (run H)), Forall (fun r => r_out r <> None) l \/ exists i r, nth_error l i = Some r /\ r_out r = None).
    { intros H l. induction l as [|r l [IH|(i & x & E & Q)]]; [left; constructor| |right; exists (S i), x; auto]. destruct (r_out r) eqn:Q; [left; constructor; [congruence|exact IH]|right; exists 0%nat, r; auto]. }
    destruct (to_go st) as [|b l] eqn:W1; [|right; apply (Go GReceive); [exact Logic.I|reflexivity|cbn; rewrite W1; discriminate]].
    destruct (to_rust st) as [|b l] eqn:W2; [|right; apply (Go RReceive); [exact Logic.I|reflexivity|cbn; rewrite W2; discriminate]].
    destruct (p_tasks (x_go st)) as [|b l] eqn:W3; [|right; apply (Go (GTask 0)); [exact Logic.I|reflexivity|cbn; rewrite W3; discriminate]].
    destruct (rs_tasks (x_rust st)) as [|b l] eqn:W4; [|right; apply (Go (RTask 0)); [exact Logic.I|reflexivity|cbn; rewrite W4; discriminate]].
    destruct (Rn _ (p_runs (x_go st))) as [W5|(i & r & E & Q)]; [|right; apply (Go (GConclude i (inr []))); [|reflexivity|exists r; auto]].
    + destruct (Rn _ (rs_runs (x_rust st))) as [W6|(i & r & E & Q)]; [left; repeat split; assumption|right; apply (Go (RConclude i (inr []))); [reflexivity|reflexivity|exists r; auto]].
    + cbn. split; [split; [apply ascii_utf8; reflexivity|constructor]|reflexivity].
Qed.
Print Assumptions C81_progress.

(** So with no further calls and all handlers concluding, any way of going on ends with every call answered. *)
Inductive x_goes_on {Hg Hr} (gt : ikind -> list (option Hg)) (rt : list Hr) : nat -> mix Hg Hr -> mix Hg Hr -> Prop :=
| xg_stay : forall st, x_goes_on gt rt 0 st st
| xg_move : forall n st m st' st'', x_allowed st m -> x_inner m = true -> x_move gt rt st m = Some st' -> x_goes_on gt rt n st' st'' -> x_goes_on gt rt (S n) st st''.
Theorem C81_all_answered : forall Hg Hr (go_tbl : ikind -> list (option Hg)) (rust_tbl : list Hr), few go_tbl ->
  forall st, x_reach go_tbl rust_tbl st ->
  (forall n st', x_goes_on go_tbl rust_tbl n st st' -> (n <= x_work st)%nat /\ x_reach go_tbl rust_tbl st') /\
  (exists n st', x_goes_on go_tbl rust_tbl n st st' /\ x_rest st').
Proof.
  intros Hg Hr w tbl F st R. split.
  - intros n st' G. revert R. induction G as [st|n st m st' st'' A In0 D G IH]; intro R; [split; [apply Nat.le_0_l|exact R]|].
    assert (L := proj1 (C81_progress _ _ w tbl F st R) m st' A In0 D). destruct (IH (x_step w tbl st m st' R A D)) as [L' R']. split; [lia|exact R'].
  - remember (x_work st) as k eqn:K. assert (Le : (x_work st <= k)%nat) by lia. clear K. revert st R Le. induction k as [|k IH]; intros st R Le; destruct (C81_progress _ _ w tbl F st R) as [P [A|(m & st' & A & In0 & D)]].
    + exists 0%nat, st. split; [constructor|exact A].
    + assert (L := P m st' A In0 D). lia.
    + exists 0%nat, st. split; [constructor|exact A].
    + assert (L := P m st' A In0 D). destruct (IH st' (x_step w tbl st m st' R A D)) as (n & st'' & G & Z); [lia|]. exists (S n), st''. split; [exact (xg_move w tbl n st m st' st'' A In0 D G)|exact Z].
Qed.
Print Assumptions C81_all_answered.

(** ** Ids *)

(** Host and guest use the same ids for their own requests: the k-th call of each has the same one. *)
Theorem C81_same_ids : forall Hg Hr (go_tbl : ikind -> list (option Hg)) (rust_tbl : list Hr), few go_tbl ->
  forall st, x_reach go_tbl rust_tbl st -> forall k c d, nth_error (p_calls (x_go st)) k = Some c -> nth_error (rs_calls (x_rust st)) k = Some d ->
  c_sid c = 2 * N.of_nat (S k) /\ rc_sid d = 2 * N.of_nat (S k).
Proof.
  intros Hg Hr gt rt F st R k c d Ec Ed. destruct (x_reach_inv gt rt F st R) as (mg & mr & I).
  destruct (d_sid _ _ _ _ _ _ _ _ _ _ _ _ (x_gdir _ _ _ _ _ I) _ _ (nth_abs _ _ abs_go _ _ _ Ec)) as [S1 _]. destruct (d_sid _ _ _ _ _ _ _ _ _ _ _ _ (x_rdir _ _ _ _ _ I) _ _ (nth_abs _ _ abs_rust _ _ _ Ed)) as [S2 _]. cbn [abs_go abs_rust a_sid] in *.
  split; [|exact S2]. rewrite S1. unfold idg, kth_id. apply N.mod_small. assert (L := nth_len' _ _ _ _ Ed). assert (Z := x_rlen _ _ _ _ _ I). unfold len in Z. change (2^30) with 1073741824 in Z. change (2^31) with 2147483648. lia.
Qed.
Print Assumptions C81_same_ids.

(** ** An execution *)
Definition ex_go_tbl (k : ikind) : list (option N) := match k with RR => [Some 80; None; Some 81] | _ => [] end.
Definition ex_rust_tbl : list N := [70; 71].
Lemma ex_go_few : few ex_go_tbl.
Proof. intros [| | |]; reflexivity. Qed.
Definition op (n x : N) : bytes := [0; 0; 0; n; 0; 0; 0; 0; x].
Definition ex_calls : list xmove :=
  [GCall [1; 2] (op 1 9); RCall [3] (op 2 8); GSubscribe 0; RCall [4] (op 1 7); GCall [5] [0; 0; 0; 7]; RCall [6] [1]; GSubscribe 1; GCall [7] (op 0 6);
   RReceive; RReceive; GReceive; GReceive; GReceive; GTask 0].
Definition ex_ends : list xmove :=
  [GConclude 0 (inr []); GTask 1; RTask 0; RReceive; GTask 0; RConclude 0 (inl ([44], [45])); RReceive; RReceive; GReceive; GReceive].
Definition ok_out (o : pay + bytes) : bool := match o with inl (data, md) => (len md <? 2^24) && (len md + len data <? 2^32 - 13) | inr msg => len msg <? 2^32 - 13 end.
Definition ok_move (st : mix N N) (m : xmove) : bool :=
  match m with
  | GCall data md => wfb md && (len md <? 2^24) && (len md + len data <? 2^32 - 13) && wfb data && (4 <=? len md) && (len (p_calls (x_go st)) <? 2^30)
  | GSubscribe k => match nth_error (p_calls (x_go st)) k with Some c => negb (c_subscribed c) | None => false end
  | GConclude _ o => match o with inl (data, md) => wfb data && wfb md | inr msg => forallb (fun b => b <? 128) msg && wfb msg end && ok_out o
  | RCall data md => wfb md && (len md <? 2^24) && (len md + len data <? 2^32 - 13) && (len (rs_calls (x_rust st)) <? 2^30 - 1)
  | RConclude _ o => ok_out o
  | RDrop _ => false
  | _ => true
  end.
Fixpoint ok_moves (st : mix N N) (ms : list xmove) : option (mix N N) :=
  match ms with
  | [] => Some st
  | m :: ms' => if ok_move st m then match x_move ex_go_tbl ex_rust_tbl st m with Some st' => ok_moves st' ms' | None => None end else None
  end.
Lemma ok_out_ok : forall o, ok_out o = true -> sendable_out o.
Proof. intros [[d m]|e] A; cbn [ok_out sendable_out] in *; [apply andb_prop in A as [A B]; split; apply N.ltb_lt; assumption|apply N.ltb_lt; exact A]. Qed.
Lemma ok_moves_reach : forall ms st st', x_reach ex_go_tbl ex_rust_tbl st -> ok_moves st ms = Some st' -> x_reach ex_go_tbl ex_rust_tbl st'.
Proof.
  induction ms as [|m ms IH]; intros st st' R E; cbn [ok_moves] in E; [assert (Q : st = st') by congruence; rewrite <- Q; exact R|].
  destruct (ok_move st m) eqn:O; [|discriminate E]. destruct (x_move ex_go_tbl ex_rust_tbl st m) as [x|] eqn:D; [|discriminate E]. apply (IH x st'); [|exact E].
  apply (x_step _ _ st m x R); [|exact D]. clear - O. destruct m as [data md|k| |i|i o|data md| |i|i o|k]; cbn [ok_move x_allowed] in *; try exact Logic.I; rewrite ?andb_true_iff in O.
  - destruct O as (((((A & B) & C) & W) & L) & N0). split; [split; [apply wfb_wf; exact A|split; apply N.ltb_lt; assumption]|]. split; [apply wfb_wf; exact W|]. split; [apply N.leb_le; exact L|apply N.ltb_lt; exact N0].
  - intros c E. rewrite E in O. destruct (c_subscribed c); [discriminate O|reflexivity].
  - destruct O as [A B]. split; [|exact (ok_out_ok _ B)]. destruct o as [[d m]|e]; apply andb_prop in A as [A1 A2]; (split; [|apply wfb_wf; exact A2]); [apply wfb_wf; exact A1|apply ascii_utf8; exact A1].
  - destruct O as (((A & B) & C) & L). split; [split; [apply wfb_wf; exact A|split; apply N.ltb_lt; assumption]|apply N.ltb_lt; exact L].
  - exact (ok_out_ok _ O).
  - discriminate O.
Qed.

(** Calls in both directions that share their ids, answered out of order; one names no handler of the guest, one is never subscribed, one names no handler of the
    host, one has too little metadata for the host, one error has no text. *)
Example C81_ex : exists st st', x_reach ex_go_tbl ex_rust_tbl st /\ x_reach ex_go_tbl ex_rust_tbl st' /\ x_rest st' /\
  map results (p_calls (x_go st)) = [[]; []; []] /\ map rc_res (rs_calls (x_rust st)) = [RPending; RPending; RPending] /\ x_work st = 12%nat /\
  map c_sid (p_calls (x_go st')) = [2; 4; 6] /\ map rc_sid (rs_calls (x_rust st')) = [2; 4; 6] /\
  map results (p_calls (x_go st')) = [[inl ([44], [45])]; [inr no_handler]; []] /\
  map rc_res (rs_calls (x_rust st')) = [RGot (inr (0, no_data)); RGot (inr (0, not_found)); RGot (inr (0, invalid_metadata))] /\
  map (fun r => (r_handler r, r_sid r, r_data r, r_md r)) (p_runs (x_go st')) = [(81, 2, [3], op 2 8)] /\
  map (fun r => (r_handler r, r_sid r, r_data r, r_md r)) (rs_runs (x_rust st')) = [(71, 2, [1; 2], op 1 9)].
Proof.
  destruct (ok_moves mix_create ex_calls) as [st|] eqn:X; [|vm_compute in X; discriminate X]. assert (R := ok_moves_reach _ _ _ (x_init _ _) X).
  destruct (ok_moves st ex_ends) as [st'|] eqn:Y; [|exfalso; vm_compute in X; injection X as <-; vm_compute in Y; discriminate Y]. assert (R' := ok_moves_reach _ _ _ R Y).
  exists st, st'. split; [exact R|]. split; [exact R'|]. vm_compute in X. injection X as <-. vm_compute in Y. injection Y as <-. split.
  - vm_compute. repeat (split; [reflexivity|]). split; repeat constructor; discriminate.
  - vm_compute. repeat split.
Qed.

(** ** What is not allowed above *)

(** A request of the host crashes the guest exactly if its metadata is shorter than four bytes. *)
Theorem C81_guest_panics_iff : forall Hr (rust_tbl : list Hr) p sid data md, sid < 2^31 -> sendable data md -> wf data ->
  (receive rust_tbl p (wire (request_of (mkCall sid data md false new_processor))) = None <-> len md < 4).
Proof.
  intros Hr rt p sid data md S Sd W. set (m := Req (sid, data, md)). assert (M : msg_ok m) by (split; assumption).
  change (wire _) with (on_line m). unfold receive.
  assert (A := parse_agree (on_line m)). assert (Wl : wf (on_line m)).
  { unfold on_line, m. cbn [msg_frame wire rf_stream_id rf_type rf_metadata rf_data]. rewrite !wf_app. split; [apply wf_header|]. split; [apply wf_nil|]. split; [apply wf_wire_md; apply Sd|exact W]. }
  specialize (A Wl). rewrite (msg_parse m M) in A. cbn [agree] in A. destruct A as [[_ (g & E & Sy & C)]|[NR _]]; [|exfalso; apply NR; exact Logic.I]. rewrite E. clear E.
  destruct g as [x|s|s c x|s n|r|r|r|r]; try discriminate Sy; cbn [go_view go_request says consistent] in Sy, C; rewrite C in Sy; cbn [type_number rf_type rf_stream_id rf_metadata rf_data msg_frame m] in Sy; try discriminate Sy.
  assert (Q := f_equal (fun f => match f with FramesModel.FRequest x => rf_metadata x | _ => [] end) Sy). cbn [rf_metadata] in Q.
  cbn [process_once]. unfold on_request_response, find_handler, parse_metadata. rewrite Q. destruct (N.leb_spec 4 (len md)); cbn [bind].
  - split; [|lia]. destruct (nth_error rt _); discriminate.
  - split; [lia|reflexivity].
Qed.
Print Assumptions C81_guest_panics_iff.
Theorem C81_short_metadata_refuted : exists ms st, x_moves ex_go_tbl ex_rust_tbl mix_create ms = Some st /\ ms = [GCall [1] []; GSubscribe 0] /\ to_rust st <> [] /\
  x_move ex_go_tbl ex_rust_tbl st RReceive = None.
Proof.
  destruct (x_moves ex_go_tbl ex_rust_tbl mix_create [GCall [1] []; GSubscribe 0]) as [st|] eqn:X; [|vm_compute in X; discriminate X].
  exists [GCall [1] []; GSubscribe 0], st. split; [exact X|]. split; [reflexivity|]. vm_compute in X. injection X as <-. split; [discriminate|vm_compute; reflexivity].
Qed.
Print Assumptions C81_short_metadata_refuted.

(** A handler of the host that fails with a text that is not UTF-8 leaves the guest's call without an answer for ever. *)
Theorem C81_text_refuted : exists ms st c, x_moves ex_go_tbl ex_rust_tbl mix_create ms = Some st /\ x_rest st /\ rs_calls (x_rust st) = [c] /\ rc_res c = RPending /\
  map r_out (p_runs (x_go st)) = [Some (inr [255])].
Proof.
  set (ms := [RCall [1] (op 0 0); GReceive; GTask 0; GConclude 0 (inr [255]); RReceive; GReceive]).
  destruct (x_moves ex_go_tbl ex_rust_tbl mix_create ms) as [st|] eqn:X; [|vm_compute in X; discriminate X]. exists ms, st. vm_compute in X. injection X as <-. eexists.
  split; [vm_compute; reflexivity|]. split; [|vm_compute; repeat split]. vm_compute. repeat (split; [reflexivity|]). split; repeat constructor; discriminate.
Qed.
Print Assumptions C81_text_refuted.

(** A guest that has given up one of its calls crashes when the host answers it with an error. *)
Theorem C81_dropped_refuted : exists ms st, x_moves ex_go_tbl ex_rust_tbl mix_create ms = Some st /\ ms = [RCall [1] (op 0 0); RDrop 0; GReceive; GTask 0; GConclude 0 (inr [65])] /\
  length (to_rust st) = 1%nat /\ x_move ex_go_tbl ex_rust_tbl st RReceive = None.
Proof.
  set (ms := [RCall [1] (op 0 0); RDrop 0; GReceive; GTask 0; GConclude 0 (inr [65])]).
  destruct (x_moves ex_go_tbl ex_rust_tbl mix_create ms) as [st|] eqn:X; [|vm_compute in X; discriminate X]. exists ms, st. split; [exact X|]. split; [reflexivity|]. vm_compute in X. injection X as <-. split; vm_compute; reflexivity.
Qed.
Print Assumptions C81_dropped_refuted.
