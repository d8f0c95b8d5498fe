(** Executions of two peers calling each other. *)
From Coq Require Import List NArith ZArith Bool Lia.
From Coq Require Import ZifyBool ZifyNat ZifyN.
From Verif Require Import Base BaseLemmas FramesModel FramesSpec FramesProofs InvokeModel InvokeSpec InvokeProofs LookupModel LookupSpec LookupProofs StreamIdModel StreamIdSpec StreamIdProofs.
From Verif Require Import MonoModel ProxyModel DispatchModel DispatchSpec DispatchProofs CallModel CallSpec CallInv.
Import ListNotations.
Open Scope N_scope.

Section Proofs.
Context {H : Type}.
Context (w : side -> site) (tbl : side -> ikind -> list (option H)).
Context (Few : forall s, DispatchSpec.few (tbl s)).
Notation net := (net H).
Notation peer := (peer H).
Notation act := (act H nat).
Notation run := (run H).

(** ** Messages *)
Inductive msg := Req (q : req) | Rep (r : rep).
Definition msg_frame (m : msg) : frame :=
  match m with
  | Req (sid, d, md) => FramesModel.FRequest (mkRequest FrameTypeRequestResponse sid md d false true 1)
  | Rep (sid, o) => answer_of sid o
  end.
Definition msg_ok (m : msg) : Prop :=
  match m with Req (sid, d, md) => sid < 2^31 /\ sendable d md | Rep (sid, o) => sid < 2^31 /\ sendable_out o end.
Definition on_line (m : msg) : bytes := wire (msg_frame m).
Definition reqs (l : list msg) : list req := flat_map (fun m => match m with Req q => [q] | _ => [] end) l.
Definition reps (l : list msg) : list rep := flat_map (fun m => match m with Rep r => [r] | _ => [] end) l.
Lemma reqs_app : forall a b, reqs (a ++ b) = reqs a ++ reqs b.
Proof. intros. apply flat_map_app. Qed.
Lemma reps_app : forall a b, reps (a ++ b) = reps a ++ reps b.
Proof. intros. apply flat_map_app. Qed.

Lemma msg_range : forall m, msg_ok m -> frame_in_range (msg_frame m) /\ len (frame_metadata (msg_frame m)) < 2^24 /\ on_wire (msg_frame m) = msg_frame m.
Proof.
  intros [[[sid d] md]|[sid [[d md]|e]]]; cbn [msg_ok msg_frame answer_of].
  - intros [S (_ & L & F)]. split; [|split; [exact L|reflexivity]]. cbn [frame_in_range rf_stream_id rf_type rf_initial_n rf_metadata rf_data]. change FrameTypeRequestResponse with 4. split; [exact S|]. split; [lia|]. split; [reflexivity|exact F].
  - intros [S [L F]]. split; [|split; [exact L|reflexivity]]. split; [exact S|exact F].
  - intros [S L]. split; [|split; [reflexivity|reflexivity]]. split; [exact S|]. split; [reflexivity|exact L].
Qed.
Lemma msg_bytes : forall m, msg_ok m -> frame_bytes (msg_frame m) = Ret (on_line m).
Proof. intros m M. destruct (msg_range m M) as (A & _). exact (frame_bytes_wire _ A). Qed.
Lemma msg_parse : forall m, msg_ok m -> frame_parse (on_line m) = Ret (Some (msg_frame m)).
Proof. intros m M. destruct (msg_range m M) as (A & B & C). unfold on_line. rewrite (frame_parse_wire _ A B), C. reflexivity. Qed.
Lemma msg_weight : forall m, msg_ok m -> weight (on_line m) = match m with Req _ => 4%nat | Rep _ => 1%nat end.
Proof. intros m M. unfold weight. rewrite (msg_parse m M). destruct m as [[[sid d] md]|[sid [[d md]|e]]]; reflexivity. Qed.

(** ** Sides *)
Lemma other_other : forall s, other (other s) = s.
Proof. destruct s; reflexivity. Qed.
Lemma side_cases : forall s X, X = s \/ X = other s.
Proof. destruct s, X; auto. Qed.
Lemma eqb_same : forall s, side_eqb s s = true.
Proof. destruct s; reflexivity. Qed.
Lemma eqb_other : forall s, side_eqb (other s) s = false.
Proof. destruct s; reflexivity. Qed.
Lemma eqb_other' : forall s, side_eqb s (other s) = false.
Proof. destruct s; reflexivity. Qed.
Ltac sides := cbn [n_peer n_wire set_peer set_wire]; rewrite ?other_other, ?eqb_same, ?eqb_other, ?eqb_other'.
Definition put (m : side -> list msg) (s : side) (l : list msg) : side -> list msg := fun t => if side_eqb t s then l else m t.

(** ** Registries *)
Definition reg_of (X : side) (p : peer) : lookup nat := match X with Client => p_odd p | Server => p_even p end.
Definition set_reg (X : side) (p : peer) (l : lookup nat) : peer :=
  match X with
  | Client => mkPeer (p_counter p) l (p_even p) (p_calls p) (p_tasks p) (p_runs p)
  | Server => mkPeer (p_counter p) (p_odd p) l (p_calls p) (p_tasks p) (p_runs p)
  end.
Lemma odd_sid : forall X k, N.odd (kth_id X (N.of_nat (S k))) = match X with Client => true | Server => false end.
Proof.
  intros X k. destruct X; unfold kth_id.
  - replace (2 * N.of_nat (S k) - 1) with (1 + 2 * N.of_nat k) by lia. change (2^31) with (2 * 1073741824).
    assert (E : (1 + 2 * N.of_nat k) mod (2 * 1073741824) = 1 + 2 * (N.of_nat k mod 1073741824)).
    { symmetry. apply (N.mod_unique _ _ (N.of_nat k / 1073741824)); assert (D := N.div_mod (N.of_nat k) 1073741824 ltac:(discriminate)); assert (L := N.mod_lt (N.of_nat k) 1073741824 ltac:(discriminate)); lia. }
    rewrite E, N.odd_add_mul_2. reflexivity.
  - change (2^31) with (2 * 1073741824). rewrite N.mul_mod_distr_l by discriminate. rewrite <- (N.add_0_l (2 * _)), N.odd_add_mul_2. reflexivity.
Qed.
Lemma sid_range : forall X k, kth_id X k < 2^31.
Proof. intros X k. destruct X; apply N.mod_lt; discriminate. Qed.

Section Parity.
Context (X : side) (sid : N).
Context (P : N.odd sid = match X with Client => true | Server => false end).
Lemma register_eq : forall (p : peer) k, register p sid k = match Add (reg_of X p) sid k with Some l => Some (set_reg X p l) | None => None end.
Proof. intros p k. unfold register. rewrite P. destruct X; reflexivity. Qed.
Lemma remove_eq : forall p : peer, remove p sid = match Remove (reg_of X p) sid with Some l => Some (set_reg X p l) | None => None end.
Proof. intros p. unfold remove. rewrite P. destruct X; reflexivity. Qed.
Lemma get_eq : forall p : peer, get_stream p sid = match Get (reg_of X p) sid with Some r => r | None => None end.
Proof. intros p. unfold get_stream. rewrite P. destruct X; reflexivity. Qed.
End Parity.
Lemma set_reg_parts : forall X p l, reg_of X (set_reg X p l) = l /\ p_calls (set_reg X p l) = p_calls p /\ p_tasks (set_reg X p l) = p_tasks p /\ p_runs (set_reg X p l) = p_runs p /\ p_counter (set_reg X p l) = p_counter p.
Proof. destruct X; repeat split. Qed.
Lemma set_call_parts : forall X (p : peer) k f, reg_of X (set_call p k f) = reg_of X p /\ p_calls (set_call p k f) = upd k f (p_calls p) /\ p_tasks (set_call p k f) = p_tasks p /\ p_runs (set_call p k f) = p_runs p /\ p_counter (set_call p k f) = p_counter p.
Proof. intros X p k f. unfold set_call, upd. destruct (nth_error (p_calls p) k); destruct X; repeat split. Qed.

(** ** The invariant *)
Definition view (st : net) (m : side -> list msg) (X : side) : Prop :=
  vinv w tbl X (p_calls (n_peer st X)) (reg_of X (n_peer st X)) (reqs (m (other X))) (p_tasks (n_peer st (other X))) (p_runs (n_peer st (other X))) (reps (m X)).
Record ninv (st : net) (m : side -> list msg) : Prop := {
  ni_wire : forall s, n_wire st s = map on_line (m s);
  ni_view : forall X, view st m X;
  ni_counter : forall X, p_counter (n_peer st X) = len (p_calls (n_peer st X)) }.

Lemma msgs_ok : forall st m, ninv st m -> forall s x, In x (m s) -> msg_ok x.
Proof.
  intros st m I s x Hx. destruct x as [q|r].
  - assert (V := ni_view _ _ I (other s)). unfold view in V. rewrite other_other in V. assert (Hq : In q (reqs (m s))) by (apply in_flat_map; exists (Req q); split; [exact Hx|left; reflexivity]).
    destruct (i_req _ _ _ _ _ _ _ _ _ V _ Hq) as (k & c & E & ->). destruct (i_sid _ _ _ _ _ _ _ _ _ V _ _ E) as [S1 S2]. split; [rewrite S1; apply sid_range|exact S2].
  - assert (V := ni_view _ _ I s). unfold view in V. assert (Hq : In r (reps (m s))) by (apply in_flat_map; exists (Rep r); split; [exact Hx|left; reflexivity]).
    destruct (i_rep _ _ _ _ _ _ _ _ _ V _ Hq) as (k & c & E & E1 & E2 & E3). destruct (i_sid _ _ _ _ _ _ _ _ _ V _ _ E) as [S1 S2]. destruct r as [sid o]. cbn [fst snd msg_ok] in *. split; [rewrite E1, S1; apply sid_range|exact E3].
Qed.

Lemma ninv_init : ninv net_create (fun _ => []).
Proof. constructor; [reflexivity| |reflexivity]. intro X. unfold view. destruct X; cbn; apply vinv_init. Qed.

(** ** Work *)
Definition line_work (l : list msg) : nat := list_sum (map (fun x => match x with Req _ => 4%nat | Rep _ => 1%nat end) l).
Lemma work_side : forall st m, ninv st m -> forall s, work_at st s = (line_work (m s) + 3 * length (p_tasks (n_peer st s)) + 2 * pending (p_runs (n_peer st s)))%nat.
Proof.
  intros st m I s. unfold work_at. f_equal. f_equal. rewrite (ni_wire _ _ I). unfold line_work. rewrite map_map. f_equal. apply map_ext_in. intros x Hx. apply msg_weight. exact (msgs_ok _ _ I s x Hx).
Qed.
Lemma work_other : forall st : net, forall s, work st = (work_at st s + work_at st (other s))%nat.
Proof. intros st s. unfold work. destruct s; cbn [other]; lia. Qed.

Lemma post_eq : forall (st : net) m s x, n_wire st (other s) = map on_line (m (other s)) -> msg_ok x ->
  post st s (msg_frame x) = Some (set_wire st (other s) (map on_line (m (other s) ++ [x]))).
Proof. intros st m s x W M. unfold post. rewrite (msg_bytes x M), W, map_app. reflexivity. Qed.

(** ** Moves *)
Lemma m_call : forall st m s d md, ninv st m -> sendable d md -> len (p_calls (n_peer st s)) < 2^30 ->
  exists st', do_move w tbl st (MCall s d md) = Some st' /\ ninv st' m.
Proof.
  intros st m s d md I Sd L. cbn [do_move]. rewrite Next_closed by (rewrite (ni_counter _ _ I); change (2^63) with 9223372036854775808; change (2^30) with 1073741824 in L; lia).
  eexists. split; [reflexivity|]. assert (C := ni_counter _ _ I s). constructor.
  - intro X. sides. apply I.
  - intro X. unfold view. destruct (side_cases s X) as [->| ->]; sides.
    + cbn [p_calls]. replace (reg_of s (mkPeer _ _ _ _ _ _)) with (reg_of s (n_peer st s)) by (destruct s; reflexivity). rewrite C. replace (len (p_calls (n_peer st s)) + 1) with (N.of_nat (S (length (p_calls (n_peer st s))))) by (unfold len; lia).
      apply t_call; [exact (ni_view _ _ I s)|exact Sd|exact L].
    + cbn [p_tasks p_runs]. assert (V := ni_view _ _ I (other s)). unfold view in V. rewrite other_other in V. exact V.
  - intro X. destruct (side_cases s X) as [->| ->]; sides; cbn [p_counter p_calls]; [|apply I]. rewrite C. unfold len. rewrite app_length. cbn [length]. lia.
Qed.

Lemma m_subscribe : forall st m s k c, ninv st m -> nth_error (p_calls (n_peer st s)) k = Some c -> c_subscribed c = false ->
  exists st' m', do_move w tbl st (MSubscribe s k) = Some st' /\ ninv st' m'.
Proof.
  intros st m s k c I E Sb. cbn [do_move]. rewrite E. assert (V := ni_view _ _ I s). unfold view in V. destruct (i_sid _ _ _ _ _ _ _ _ _ V _ _ E) as [S1 S2].
  assert (P : N.odd (c_sid c) = match s with Client => true | Server => false end) by (rewrite S1; apply odd_sid).
  rewrite (register_eq s _ P). destruct (add_ok _ _ _ _ _ _ _ _ _ V (c_sid c) k) as (l & Al). rewrite Al.
  set (f := fun c : call => mkCall (c_sid c) (c_data c) (c_md c) true (MonoModel.pstep (c_proc c) PSubscribe)). set (p := set_call (set_reg s (n_peer st s) l) k f).
  assert (M : msg_ok (Req (c_sid c, c_data c, c_md c))) by (split; [rewrite S1; apply sid_range|exact S2]).
  exists (set_wire (set_peer st s p) (other s) (map on_line (m (other s) ++ [Req (c_sid c, c_data c, c_md c)]))), (put m (other s) (m (other s) ++ [Req (c_sid c, c_data c, c_md c)])).
  split. { apply (post_eq (set_peer st s p) m s (Req (c_sid c, c_data c, c_md c))); [exact (ni_wire _ _ I (other s))|exact M]. }
  destruct (set_call_parts s (set_reg s (n_peer st s) l) k f) as (A1 & A2 & A3 & A4 & A5). destruct (set_reg_parts s (n_peer st s) l) as (B1 & B2 & B3 & B4 & B5). fold p in A1, A2, A3, A4, A5.
  constructor.
  - intro X. unfold put. destruct (side_cases s X) as [->| ->]; sides; [apply I|reflexivity].
  - intro X. unfold view, put. destruct (side_cases s X) as [->| ->]; sides.
    + rewrite A1, A2, B1, B2, reqs_app. exact (t_subscribe _ _ _ _ _ _ _ _ _ V _ _ _ E Sb Al).
    + assert (V' := ni_view _ _ I (other s)). unfold view in V'. rewrite other_other in V'. rewrite A3, A4, B3, B4, reps_app. cbn [reps flat_map]. rewrite app_nil_r. exact V'.
  - intro X. destruct (side_cases s X) as [->| ->]; sides; [|apply I]. rewrite A5, A2, B5, B2. unfold len. rewrite upd_len. apply I.
Qed.

Lemma slice_ok : forall E A (l : list A) n, n <= len l -> @slice_from E A l n = Ret (skipn (N.to_nat n) l).
Proof. intros. unfold slice_from. destruct (N.leb_spec n (len l)); [reflexivity|lia]. Qed.
Lemma handle_rr : forall Y get sid d md n, wf md ->
  ((forall h, ~ names (tbl Y) RR md h) /\ @handle H nat (tbl Y) get (w Y) RR sid d md n = Ret [ASend (FramesModel.FError sid 0 (if len md <? 8 then invalid_metadata else not_found))])
  \/ exists h parent, names (tbl Y) RR md h /\ handle (tbl Y) get (w Y) RR sid d md n = Ret [ARun RR h sid d (handler_metadata (w Y) RR md) parent n].
Proof.
  intros Y get sid d md n W. unfold DispatchModel.handle. destruct (N.ltb_spec (len md) 8) as [L|L].
  - left. split; [intros h [A _]; lia|reflexivity].
  - rewrite get_be4 by (assumption || lia). cbn [bind].
    assert (P : match w Y with
                | Host => do rest <- slice_from md 4 ; do p <- get_be 4 rest ; Ret (if p =? 0 then None else get p)
                | _ => Ret None
                end = @Ret derr _ (parent_of get (w Y) md)).
    { destruct (w Y); try reflexivity. rewrite slice_ok by lia. cbn [bind]. change (N.to_nat 4) with 4%nat.
      rewrite get_be4; [reflexivity|apply wf_skipn; exact W|]. rewrite len_skipn. lia. }
    rewrite P. cbn [bind]. rewrite (get_from_slot get _ _ (Few Y RR)). cbn [bind]. unfold InvokeProofs.slot.
    destruct (nth_error (tbl Y RR) (N.to_nat (number4 md))) as [[h|]|] eqn:Q.
    + right. exists h, (parent_of get (w Y) md). split; [split; [lia|exact Q]|].
      assert (R : (if strips (w Y) RR then slice_from md 8 else Ret md) = @Ret derr _ (handler_metadata (w Y) RR md)).
      { destruct (w Y); try reflexivity; cbn [strips handler_metadata]; rewrite slice_ok by lia; reflexivity. }
      rewrite R. cbn [bind]. destruct (w Y); reflexivity.
    + left. split; [intros h [_ B]; congruence|reflexivity].
    + left. split; [intros h [_ B]; congruence|reflexivity].
Qed.

(** A request arrives. *)
Lemma received_request : forall Y (p : peer) c, sendable (c_data c) (c_md c) -> c_sid c < 2^31 ->
  exists t, received w tbl Y p (on_line (Req (c_sid c, c_data c, c_md c))) = Ret [t] /\ task_for w tbl (other Y) c t.
Proof.
  intros Y p c Sd Sr. set (x := Req (c_sid c, c_data c, c_md c)). assert (M : msg_ok x) by (split; assumption).
  assert (Hd := handle_rr Y (get_stream p) (c_sid c) (c_data c) (c_md c) 1 (proj1 Sd)).
  assert (E : received w tbl Y p (on_line x) = handle (tbl Y) (get_stream p) (w Y) RR (c_sid c) (c_data c) (c_md c) 1).
  { unfold received. destruct (w Y) eqn:WY.
    - rewrite (msg_parse x M). reflexivity.
    - destruct (recv_request (tbl Y) (get_stream p) (fun _ => SMono) Host _ _ (msg_parse x M)) as (k & K & ->). cbn in K. destruct k; try discriminate K. reflexivity.
    - destruct (recv_request (tbl Y) (get_stream p) (fun _ => SMono) Guest _ _ (msg_parse x M)) as (k & K & ->). cbn in K. destruct k; try discriminate K. reflexivity. }
  rewrite E. destruct Hd as [[Nb ->]|(h & parent & Nm & ->)]; eexists; (split; [reflexivity|]).
  - left. unfold nobody. rewrite other_other. split; [exact Nb|reflexivity].
  - right. exists h, parent. rewrite other_other. split; [exact Nm|reflexivity].
Qed.

(** An answer arrives. *)
Lemma received_answer : forall Y (p : peer) sid o k, msg_ok (Rep (sid, o)) -> get_stream p sid = Some k ->
  received w tbl Y p (on_line (Rep (sid, o))) = Ret ((match o with inl (d, m) => [ACall k (OnNext d m); ACall k OnComplete] | inr e => [ACall k (OnError e); ACall k OnComplete] end) ++ [ARemove sid]).
Proof.
  intros Y p sid o k M G. set (x := Rep (sid, o)) in *.
  assert (R : is_request (msg_frame x) = false) by (destruct o as [[d m]|e]; reflexivity).
  assert (F : frame_sid (msg_frame x) = sid) by (destruct o as [[d m]|e]; reflexivity).
  assert (E : received w tbl Y p (on_line x) = for_stream (fun _ => SMono) k (msg_frame x)).
  { unfold received. destruct (w Y).
    - rewrite (msg_parse x M). apply peer_stream; [exact R|rewrite F; exact G].
    - rewrite (recv_stream (tbl Y) (get_stream p) (fun _ => SMono) Host _ _ (msg_parse x M) R), F, G. reflexivity.
    - rewrite (recv_stream (tbl Y) (get_stream p) (fun _ => SMono) Guest _ _ (msg_parse x M) R), F, G. reflexivity. }
  rewrite E. destruct o as [[d m]|e]; reflexivity.
Qed.

Lemma pending_app : forall a b : list run, pending (a ++ b) = (pending a + pending b)%nat.
Proof. intros. unfold pending. rewrite filter_app, app_length. reflexivity. Qed.
Lemma line_app : forall a b, line_work (a ++ b) = (line_work a + line_work b)%nat.
Proof. intros. unfold line_work. rewrite map_app, list_sum_app. reflexivity. Qed.
Lemma line_cons : forall x b, line_work (x :: b) = ((match x with Req _ => 4 | Rep _ => 1 end) + line_work b)%nat.
Proof. reflexivity. Qed.

Lemma m_receive : forall st m s, ninv st m -> n_wire st s <> [] ->
  exists st' m', do_move w tbl st (MReceive s) = Some st' /\ ninv st' m' /\ (work st' < work st)%nat.
Proof.
  intros st m s I Ne. cbn [do_move]. rewrite (ni_wire _ _ I) in *. destruct (m s) as [|x rest] eqn:Ms; [exfalso; apply Ne; reflexivity|]. clear Ne. cbn [map].
  assert (M : msg_ok x) by (apply (msgs_ok _ _ I s); rewrite Ms; left; reflexivity).
  assert (Vs := ni_view _ _ I s). assert (Vo := ni_view _ _ I (other s)). unfold view in Vs, Vo. rewrite other_other in Vo. rewrite Ms in Vs, Vo.
  destruct x as [q|[sid o]].
  - destruct (i_req _ _ _ _ _ _ _ _ _ Vo q (or_introl eq_refl)) as (k & c & E & ->). destruct M as [M1 M2].
    destruct (received_request s (n_peer st s) c M2 M1) as (t & -> & T). set (p := mkPeer (p_counter (n_peer st s)) (p_odd (n_peer st s)) (p_even (n_peer st s)) (p_calls (n_peer st s)) (p_tasks (n_peer st s) ++ [t]) (p_runs (n_peer st s))).
    assert (Pf : perform_all (n_peer st s) [t] = Some p) by (destruct T as [[_ ->]|(h & pa & _ & ->)]; reflexivity). rewrite Pf.
    exists (set_wire (set_peer st s p) s (map on_line rest)), (put m s rest). split; [reflexivity|].
    assert (I' : ninv (set_wire (set_peer st s p) s (map on_line rest)) (put m s rest)).
    { constructor.
      - intro X. unfold put. destruct (side_cases s X) as [->| ->]; sides; [reflexivity|apply I].
      - intro X. unfold view, put. destruct (side_cases s X) as [->| ->]; sides.
        + replace (reg_of s p) with (reg_of s (n_peer st s)) by (destruct s; reflexivity). exact Vs.
        + subst p. cbn [p_tasks p_runs]. exact (t_receive _ _ _ _ _ _ _ _ _ Vo _ _ _ _ E eq_refl T).
      - intro X. destruct (side_cases s X) as [->| ->]; sides; apply I. }
    split; [exact I'|]. rewrite (work_other _ s), (work_other st s), !(work_side _ _ I'), !(work_side _ _ I). unfold put. sides. subst p. cbn [p_tasks p_runs]. rewrite Ms, app_length, line_cons. cbn [length]. lia.
  - destruct (reply_target _ _ _ _ _ _ _ _ _ Vs sid o (reps rest) eq_refl) as (k & c & E & -> & Sb & Fn & So & Oc & G).
    assert (P : N.odd (c_sid c) = match s with Client => true | Server => false end) by (destruct (i_sid _ _ _ _ _ _ _ _ _ Vs _ _ E) as [S1 _]; rewrite S1; apply odd_sid).
    rewrite (received_answer s (n_peer st s) (c_sid c) o k M) by (rewrite (get_eq s _ P), G; reflexivity).
    destruct (remove_ok _ _ _ _ _ _ _ _ _ Vs (c_sid c)) as (l & Rl).
    set (p := set_reg s (set_call (n_peer st s) k (settle_call o)) l).
    assert (Pf : perform_all (n_peer st s) ((match o with inl (d, m0) => [ACall k (OnNext d m0); ACall k OnComplete] | inr e => [ACall k (OnError e); ACall k OnComplete] end) ++ [ARemove (c_sid c)]) = Some p).
    { destruct (set_call_parts s (n_peer st s) k (settle_call o)) as (A1 & _). assert (Q : remove (set_call (n_peer st s) k (settle_call o)) (c_sid c) = Some p) by (rewrite (remove_eq s _ P), A1, Rl; reflexivity).
      transitivity (match remove (set_call (n_peer st s) k (settle_call o)) (c_sid c) with Some p' => Some p' | None => None end); [destruct o as [[d m0]|e]; reflexivity|rewrite Q; reflexivity]. }
    rewrite Pf. exists (set_wire (set_peer st s p) s (map on_line rest)), (put m s rest). split; [reflexivity|].
    destruct (set_call_parts s (n_peer st s) k (settle_call o)) as (A1 & A2 & A3 & A4 & A5). destruct (set_reg_parts s (set_call (n_peer st s) k (settle_call o)) l) as (B1 & B2 & B3 & B4 & B5). fold p in B1, B2, B3, B4, B5.
    assert (I' : ninv (set_wire (set_peer st s p) s (map on_line rest)) (put m s rest)).
    { constructor.
      - intro X. unfold put. destruct (side_cases s X) as [->| ->]; sides; [reflexivity|apply I].
      - intro X. unfold view, put. destruct (side_cases s X) as [->| ->]; sides.
        + rewrite B1, B2, A2. exact (t_reply _ _ _ _ _ _ _ _ _ Vs _ _ _ _ _ E Sb Fn eq_refl Rl).
        + rewrite B3, B4, A3, A4. exact Vo.
      - intro X. destruct (side_cases s X) as [->| ->]; sides; [|apply I]. rewrite B5, A5, B2, A2. unfold len. rewrite upd_len. apply I. }
    split; [exact I'|]. rewrite (work_other _ s), (work_other st s), !(work_side _ _ I'), !(work_side _ _ I). unfold put. sides. rewrite B3, B4, A3, A4, Ms, line_cons. lia.
Qed.

Lemma cut_some : forall {A} i (l : list A) x, nth_error l i = Some x -> exists a b, cut i l = Some (a, x, b) /\ l = a ++ x :: b.
Proof.
  intros A i l x E. unfold cut. rewrite E. exists (firstn i l), (skipn (S i) l). split; [reflexivity|]. revert l E. induction i as [|i IH]; intros [|y l] E; try discriminate E; cbn in E |- *; [congruence|]. rewrite <- IH by exact E. reflexivity.
Qed.

Lemma m_task : forall st m s i t, ninv st m -> nth_error (p_tasks (n_peer st s)) i = Some t ->
  exists st' m', do_move w tbl st (MTask s i) = Some st' /\ ninv st' m' /\ (work st' < work st)%nat.
Proof.
  intros st m s i t I E. cbn [do_move]. destruct (cut_some _ _ _ E) as (a & b & -> & Et).
  assert (Vs := ni_view _ _ I s). assert (Vo := ni_view _ _ I (other s)). unfold view in Vs, Vo. rewrite other_other in Vo.
  destruct (i_task _ _ _ _ _ _ _ _ _ Vo t (nth_error_In _ _ E)) as (k & c & Ec & T). destruct T as [[Nb ->]|(h & pa & Nm & ->)].
  - set (o := inr (refusal c)) in *. assert (M : msg_ok (Rep (c_sid c, o))).
    { destruct (i_sid _ _ _ _ _ _ _ _ _ Vo _ _ Ec) as [S1 _]. split; [rewrite S1; apply sid_range|]. subst o. cbn [sendable_out]. unfold refusal. destruct (len (c_md c) <? 8); reflexivity. }
    set (p := mkPeer _ _ _ _ (a ++ b) _). exists (set_wire (set_peer st s p) (other s) (map on_line (m (other s) ++ [Rep (c_sid c, o)]))), (put m (other s) (m (other s) ++ [Rep (c_sid c, o)])).
    split. { apply (post_eq (set_peer st s p) m s (Rep (c_sid c, o))); [exact (ni_wire _ _ I (other s))|exact M]. }
    assert (I' : ninv (set_wire (set_peer st s p) (other s) (map on_line (m (other s) ++ [Rep (c_sid c, o)]))) (put m (other s) (m (other s) ++ [Rep (c_sid c, o)]))).
    { constructor.
      - intro X. unfold put. destruct (side_cases s X) as [->| ->]; sides; [apply I|reflexivity].
      - intro X. unfold view, put. destruct (side_cases s X) as [->| ->]; sides.
        + replace (reg_of s p) with (reg_of s (n_peer st s)) by (destruct s; reflexivity). rewrite reqs_app. cbn [reqs flat_map]. rewrite app_nil_r. exact Vs.
        + rewrite reps_app. subst p. cbn [p_tasks p_runs]. exact (t_send _ _ _ _ _ _ _ _ _ Vo _ _ _ _ Et).
      - intro X. destruct (side_cases s X) as [->| ->]; sides; apply I. }
    split; [exact I'|]. rewrite (work_other _ s), (work_other st s), !(work_side _ _ I'), !(work_side _ _ I). unfold put. sides. subst p. cbn [p_tasks p_runs]. rewrite Et, line_app, line_cons, !app_length. cbn [length]. change (line_work []) with 0%nat. lia.
  - set (p := mkPeer _ _ _ _ (a ++ b) _). exists (set_peer st s p), m. split; [reflexivity|].
    assert (I' : ninv (set_peer st s p) m).
    { constructor.
      - intro X. sides. apply I.
      - intro X. unfold view. destruct (side_cases s X) as [->| ->]; sides.
        + replace (reg_of s p) with (reg_of s (n_peer st s)) by (destruct s; reflexivity). exact Vs.
        + subst p. cbn [p_tasks p_runs]. exact (t_run _ _ _ _ _ _ _ _ _ Vo _ _ _ _ _ _ _ _ Et).
      - intro X. destruct (side_cases s X) as [->| ->]; sides; apply I. }
    split; [exact I'|]. rewrite (work_other _ s), (work_other st s), !(work_side _ _ I'), !(work_side _ _ I). sides. subst p. cbn [p_tasks p_runs]. rewrite Et, pending_app, !app_length. cbn [length]. change (pending [mkRun h (c_sid c) (c_data c) (handler_metadata (w (other (other s))) RR (c_md c)) None]) with 1%nat. lia.
Qed.

Lemma m_conclude : forall st m s i r o, ninv st m -> nth_error (p_runs (n_peer st s)) i = Some r -> r_out r = None -> sendable_out o ->
  exists st' m', do_move w tbl st (MConclude s i o) = Some st' /\ ninv st' m' /\ (work st' < work st)%nat.
Proof.
  intros st m s i r o I E Ro So. cbn [do_move]. destruct (cut_some _ _ _ E) as (a & b & -> & Er).
  assert (Vs := ni_view _ _ I s). assert (Vo := ni_view _ _ I (other s)). unfold view in Vs, Vo. rewrite other_other in Vo.
  destruct (i_run _ _ _ _ _ _ _ _ _ Vo r (nth_error_In _ _ E)) as (k & c & Ec & Rf). destruct r as [h sid d md out]. cbn [r_out] in Ro. subst out.
  assert (Rs : sid = c_sid c) by apply Rf.
  assert (M : msg_ok (Rep (sid, o))) by (destruct (i_sid _ _ _ _ _ _ _ _ _ Vo _ _ Ec) as [S1 _]; split; [rewrite Rs, S1; apply sid_range|exact So]).
  set (p := mkPeer _ _ _ _ _ _). exists (set_wire (set_peer st s p) (other s) (map on_line (m (other s) ++ [Rep (sid, o)]))), (put m (other s) (m (other s) ++ [Rep (sid, o)])).
  split. { apply (post_eq (set_peer st s p) m s (Rep (sid, o))); [exact (ni_wire _ _ I (other s))|exact M]. }
  assert (I' : ninv (set_wire (set_peer st s p) (other s) (map on_line (m (other s) ++ [Rep (sid, o)]))) (put m (other s) (m (other s) ++ [Rep (sid, o)]))).
  { constructor.
    - intro X. unfold put. destruct (side_cases s X) as [->| ->]; sides; [apply I|reflexivity].
    - intro X. unfold view, put. destruct (side_cases s X) as [->| ->]; sides.
      + replace (reg_of s p) with (reg_of s (n_peer st s)) by (destruct s; reflexivity). rewrite reqs_app. cbn [reqs flat_map]. rewrite app_nil_r. exact Vs.
      + rewrite reps_app. subst p. cbn [p_tasks p_runs]. exact (t_conclude _ _ _ _ _ _ _ _ _ Vo _ _ _ _ _ _ _ Er So).
    - intro X. destruct (side_cases s X) as [->| ->]; sides; apply I. }
  split; [exact I'|]. rewrite (work_other _ s), (work_other st s), !(work_side _ _ I'), !(work_side _ _ I). unfold put. sides. subst p. cbn [p_tasks p_runs]. rewrite Er, line_app, line_cons, !pending_app. change (line_work []) with 0%nat.
  change (mkRun h sid d md None :: b) with ([mkRun h sid d md None] ++ b). change (mkRun h sid d md (Some o) :: b) with ([mkRun h sid d md (Some o)] ++ b). rewrite !pending_app.
  change (pending [mkRun h sid d md None]) with 1%nat. change (pending [mkRun h sid d md (Some o)]) with 0%nat. lia.
Qed.

(** ** Executions *)
Lemma move_inv : forall st m mv st', ninv st m -> allowed st mv -> do_move w tbl st mv = Some st' -> exists m', ninv st' m' /\ (inner mv = true -> (work st' < work st)%nat).
Proof.
  intros st m mv st' I A D. destruct mv as [s d md|s k|s|s i|s i o]; cbn [allowed] in A.
  - destruct A as [A1 A2]. destruct (m_call st m s d md I A1 A2) as (x & E & I'). assert (x = st') by congruence. subst x. exists m. split; [exact I'|discriminate].
  - destruct (nth_error (p_calls (n_peer st s)) k) as [c|] eqn:E; [|cbn [do_move] in D; rewrite E in D; discriminate D].
    destruct (m_subscribe st m s k c I E (A c eq_refl)) as (x & m' & E' & I'). assert (x = st') by congruence. subst x. exists m'. split; [exact I'|discriminate].
  - assert (Ne : n_wire st s <> []) by (intro Z; cbn [do_move] in D; rewrite Z in D; discriminate D).
    destruct (m_receive st m s I Ne) as (x & m' & E' & I' & L). assert (x = st') by congruence. subst x. exists m'. auto.
  - destruct (nth_error (p_tasks (n_peer st s)) i) as [t|] eqn:E; [|cbn [do_move] in D; unfold cut in D; rewrite E in D; discriminate D].
    destruct (m_task st m s i t I E) as (x & m' & E' & I' & L). assert (x = st') by congruence. subst x. exists m'. auto.
  - destruct (nth_error (p_runs (n_peer st s)) i) as [r|] eqn:E; [|cbn [do_move] in D; unfold cut in D; rewrite E in D; discriminate D].
    assert (Ro : r_out r = None) by (cbn [do_move] in D; unfold cut in D; rewrite E in D; destruct r as [h sid d md [o'|]]; [discriminate D|reflexivity]).
    destruct (m_conclude st m s i r o I E Ro A) as (x & m' & E' & I' & L). assert (x = st') by congruence. subst x. exists m'. auto.
Qed.

Lemma reach_ninv : forall st, net_reach w tbl st -> exists m, ninv st m.
Proof.
  intros st R. induction R as [|st mv st' R [m I] A D]; [exists (fun _ => []); apply ninv_init|]. destruct (move_inv st m mv st' I A D) as (m' & I' & _). exists m'. exact I'.
Qed.
End Proofs.
