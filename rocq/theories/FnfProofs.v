(** Executions of fire-and-forget calls. *)
From Coq Require Import List NArith ZArith Bool Lia Permutation.
From Coq Require Import ZifyBool ZifyNat ZifyN.
From Verif Require Import Base BaseLemmas FramesModel FramesSpec FramesProofs InvokeModel InvokeSpec InvokeProofs LookupModel LookupSpec LookupProofs StreamIdModel StreamIdSpec StreamIdProofs.
From Verif Require Import DispatchModel DispatchSpec DispatchProofs CallModel CallSpec FnfModel FnfSpec.
From Verif Require CallProofs.
Import ListNotations.
Open Scope N_scope.

Section Proofs.
Context {H : Type}.
Context (w : side -> site) (tbl : side -> ikind -> list (option H)).
Context (Few : forall s, DispatchSpec.few (tbl s)).
Notation fnet := (fnet H).
Notation fpeer := (fpeer H).
Notation frun := (frun H).
Notation fates := (list (frun + (N * bytes))).
Notation fate := (fate w tbl).

(** ** Messages *)
Inductive msg := Req (c : fcall) | Ref (r : N * bytes).
Definition msg_frame (m : msg) : frame := match m with Req c => frequest c | Ref (sid, e) => FramesModel.FError sid 0 e end.
Definition good (c : fcall) : Prop := fc_sid c < 2^31 /\ sendable (fc_data c) (fc_md c).
Definition msg_ok (m : msg) : Prop := match m with Req c => good c | Ref (sid, e) => sid < 2^31 /\ len e < 2^32 - 13 end.
Definition on_line (m : msg) : bytes := wire (msg_frame m).
Definition reqs (l : list msg) : list fcall := flat_map (fun m => match m with Req q => [q] | _ => [] end) l.
Definition refs (l : list msg) : list (N * bytes) := flat_map (fun m => match m with Ref r => [r] | _ => [] end) l.
Lemma reqs_app : forall a b, reqs (a ++ b) = reqs a ++ reqs b.
Proof. intros. apply flat_map_app. Qed.
Lemma refs_app : forall a b, refs (a ++ b) = refs a ++ refs b.
Proof. intros. apply flat_map_app. Qed.
Lemma msg_range : forall m, msg_ok m -> frame_in_range (msg_frame m) /\ len (frame_metadata (msg_frame m)) < 2^24 /\ on_wire (msg_frame m) = msg_frame m.
Proof.
  intros [[sid d md]|[sid e]]; cbn [msg_ok msg_frame].
  - intros [S (_ & L & F)]. split; [|split; [exact L|reflexivity]]. cbn [frame_in_range frequest rf_stream_id rf_type rf_initial_n rf_metadata rf_data fc_sid fc_data fc_md] in *. change FrameTypeRequestFNF with 5. split; [exact S|]. split; [lia|]. split; [reflexivity|exact F].
  - intros [S L]. split; [|split; [reflexivity|reflexivity]]. split; [exact S|]. split; [reflexivity|exact L].
Qed.
Lemma msg_bytes : forall m, msg_ok m -> frame_bytes (msg_frame m) = Ret (on_line m).
Proof. intros m M. destruct (msg_range m M) as (A & _). exact (frame_bytes_wire _ A). Qed.
Lemma msg_parse : forall m, msg_ok m -> frame_parse (on_line m) = Ret (Some (msg_frame m)).
Proof. intros m M. destruct (msg_range m M) as (A & B & C). unfold on_line. rewrite (frame_parse_wire _ A B), C. reflexivity. Qed.
Lemma msg_weight : forall m, msg_ok m -> fweight (on_line m) = match m with Req _ => 3%nat | Ref _ => 1%nat end.
Proof. intros m M. unfold fweight. rewrite (msg_parse m M). destruct m as [[sid d md]|[sid e]]; reflexivity. Qed.

(** ** Sides *)
Lemma other_other : forall s, other (other s) = s.
Proof. destruct s; reflexivity. Qed.
Lemma side_cases : forall s X, X = s \/ X = other s.
Proof. destruct s, X; auto. Qed.
Lemma eqb_same : forall s, side_eqb s s = true.
Proof. destruct s; reflexivity. Qed.
Lemma eqb_other : forall s, side_eqb (other s) s = false.
Proof. destruct s; reflexivity. Qed.
Lemma eqb_other' : forall s, side_eqb s (other s) = false.
Proof. destruct s; reflexivity. Qed.
Ltac sides := cbn [fn_peer fn_wire set_fpeer set_fwire]; rewrite ?other_other, ?eqb_same, ?eqb_other, ?eqb_other'.
Definition put {A} (m : side -> A) (s : side) (l : A) : side -> A := fun t => if side_eqb t s then l else m t.

(** ** Registries *)
Definition parity (X : side) : bool := match X with Client => true | Server => false end.
Definition reg_of (X : side) (p : fpeer) : lookup unit := match X with Client => fp_odd p | Server => fp_even p end.
Definition set_reg (X : side) (p : fpeer) (l : lookup unit) : fpeer :=
  match X with
  | Client => mkFP (fp_counter p) l (fp_even p) (fp_calls p) (fp_tasks p) (fp_runs p) (fp_in p) (fp_errors p)
  | Server => mkFP (fp_counter p) (fp_odd p) l (fp_calls p) (fp_tasks p) (fp_runs p) (fp_in p) (fp_errors p)
  end.
Lemma register_eq : forall X sid (p : fpeer), N.odd sid = parity X -> fregister p sid = match Add (reg_of X p) sid tt with Some l => Some (set_reg X p l) | None => None end.
Proof. intros X sid p P. unfold fregister. rewrite P. destruct X; reflexivity. Qed.
Lemma get_eq : forall X sid (p : fpeer), N.odd sid = parity X -> fget p sid = match Get (reg_of X p) sid with Some r => r | None => None end.
Proof. intros X sid p P. unfold fget. rewrite P. destruct X; reflexivity. Qed.
Lemma parity_sid : forall X k, 1 <= k -> N.odd (kth_id X k) = parity X.
Proof. intros X k L. rewrite <- (N2Nat.id k). destruct (N.to_nat k) as [|n] eqn:E; [lia|]. rewrite CallProofs.odd_sid. reflexivity. Qed.
Definition holds (l : lookup unit) (ids : list N) : Prop := exists c, repr l c /\ map (fun e => fst (fst e)) (chain c) = ids.
Lemma holds_get : forall l ids sid, holds l ids -> Get l sid = Some (if existsb (N.eqb sid) ids then Some tt else None).
Proof.
  intros l ids sid (c & R & <-). rewrite (Get_repr l c sid R). f_equal. clear R. induction (chain c) as [|[[i []] b] t IH]; [reflexivity|].
  cbn. rewrite (N.eqb_sym sid i). destruct (i =? sid); [reflexivity|]. exact IH.
Qed.
Lemma holds_add : forall l ids sid, holds l ids -> exists l', Add l sid tt = Some l' /\ holds l' (ids ++ [sid]).
Proof.
  intros l ids sid (c & R & <-). destruct (Add_repr l c sid tt R) as (l' & c' & A & R' & C). exists l'. split; [exact A|]. exists c'. split; [exact R'|].
  rewrite C. unfold chain_add. rewrite map_app. reflexivity.
Qed.
Lemma holds_empty : holds empty_lookup [].
Proof. exists []. split; [apply repr_empty|reflexivity]. Qed.

(** ** The invariant *)
Definition task_is (v : site) (t : list (act H unit)) (x : frun + (N * bytes)) : Prop :=
  match x with
  | inl r => exists parent, t = (if registers v FNF then [ARegister (fr_sid r)] else []) ++ [ARun FNF (fr_handler r) (fr_sid r) (fr_data r) (fr_md r) parent 1]
  | inr (sid, e) => t = [ASend (FramesModel.FError sid 0 e)]
  end.
Definition registered_for (v : site) (l : list frun) : list N := if registers v FNF then map fr_sid l else [].
Record finv (st : fnet) (m seen : side -> list msg) (tf : side -> fates) : Prop := {
  fi_wire : forall s, fn_wire st s = map on_line (m s);
  fi_seen : forall s, fp_in (fn_peer st s) = map on_line (seen s);
  fi_perm : forall X, Permutation (map (fate X) (fp_calls (fn_peer st X))) (map (fate X) (reqs (m (other X))) ++ tf (other X) ++ map inl (fp_runs (fn_peer st (other X))) ++ map inr (refs (seen X ++ m X)));
  fi_tasks : forall s, Forall2 (task_is (w s)) (fp_tasks (fn_peer st s)) (tf s);
  fi_good : forall X c, In c (fp_calls (fn_peer st X)) -> good c /\ N.odd (fc_sid c) = parity X;
  fi_reqs : forall X c, In c (reqs (m (other X)) ++ reqs (seen (other X))) -> In c (fp_calls (fn_peer st X));
  fi_own : forall X, holds (reg_of X (fn_peer st X)) [];
  fi_reg : forall X, holds (reg_of X (fn_peer st (other X))) (registered_for (w (other X)) (fp_runs (fn_peer st (other X))));
  fi_errors : forall X, fp_errors (fn_peer st X) = match w X with Peer => map (fun r => NotFound (fst r)) (refs (seen X)) | _ => [] end;
  fi_counter : forall X, fp_counter (fn_peer st X) = len (fp_calls (fn_peer st X)) }.

Lemma fate_sid : forall X c, match fate X c with inl r => fr_sid r = fc_sid c | inr (sid, e) => sid = fc_sid c /\ len e < 100 end.
Proof. intros X c. unfold FnfSpec.fate. destruct (handler_for _ _); [reflexivity|]. destruct (len (fc_md c) <? 8); split; reflexivity. Qed.
Lemma from_call : forall st m seen tf, finv st m seen tf -> forall X x,
  In x (tf (other X) ++ map inl (fp_runs (fn_peer st (other X))) ++ map inr (refs (seen X ++ m X))) -> exists c, In c (fp_calls (fn_peer st X)) /\ x = fate X c.
Proof.
  intros st m seen tf I X x Hx. assert (P := Permutation_sym (fi_perm _ _ _ _ I X)). assert (Hx' := Permutation_in x P (in_or_app _ _ _ (or_intror Hx))).
  apply in_map_iff in Hx'. destruct Hx' as (c & E & Hc). exists c. auto.
Qed.
Lemma ref_good : forall st m seen tf, finv st m seen tf -> forall X sid e, In (sid, e) (refs (seen X ++ m X)) -> msg_ok (Ref (sid, e)) /\ N.odd sid = parity X.
Proof.
  intros st m seen tf I X sid e Hx. destruct (from_call _ _ _ _ I X (inr (sid, e))) as (c & Hc & E); [apply in_or_app; right; apply in_or_app; right; apply in_map; exact Hx|].
  assert (F := fate_sid X c). rewrite <- E in F. destruct F as [-> L]. destruct (fi_good _ _ _ _ I X c Hc) as [[G _] P]. split; [|exact P]. split; [exact G|]. change (2^32 - 13) with 4294967283. lia.
Qed.
Lemma in_refs : forall r l, In (Ref r) l -> In r (refs l).
Proof. intros r l Hx. apply in_flat_map. exists (Ref r). split; [exact Hx|left; reflexivity]. Qed.
Lemma in_reqs : forall r l, In (Req r) l -> In r (reqs l).
Proof. intros r l Hx. apply in_flat_map. exists (Req r). split; [exact Hx|left; reflexivity]. Qed.
Lemma msgs_ok : forall st m seen tf, finv st m seen tf -> forall s x, In x (seen s ++ m s) -> msg_ok x.
Proof.
  intros st m seen tf I s [c|[sid e]] Hx.
  - assert (Q := fi_reqs _ _ _ _ I (other s) c). rewrite other_other in Q. cbn [msg_ok]. apply (fi_good _ _ _ _ I (other s)). apply Q. apply in_reqs in Hx. rewrite reqs_app in Hx.
    apply in_app_iff in Hx. apply in_app_iff. tauto.
  - apply (ref_good _ _ _ _ I s). apply in_refs. exact Hx.
Qed.
Lemma finv_init : finv fnet_create (fun _ => []) (fun _ => []) (fun _ => []).
Proof.
  constructor; intros; try reflexivity; cbn in *; try contradiction.
  - constructor.
  - destruct X; apply holds_empty.
  - unfold registered_for. destruct (registers _ _), X; apply holds_empty.
  - destruct (w X); reflexivity.
Qed.

(** ** Work *)
Definition line_work (l : list msg) : nat := list_sum (map (fun x => match x with Req _ => 3%nat | Ref _ => 1%nat end) l).
Lemma work_side : forall st m seen tf, finv st m seen tf -> forall s, fwork_at st s = (line_work (m s) + 2 * length (fp_tasks (fn_peer st s)))%nat.
Proof.
  intros st m seen tf I s. unfold fwork_at. f_equal. rewrite (fi_wire _ _ _ _ I). unfold line_work. rewrite map_map. f_equal. apply map_ext_in. intros x Hx. apply msg_weight.
  apply (msgs_ok _ _ _ _ I s x). apply in_or_app. auto.
Qed.
Lemma work_other : forall st : fnet, forall s, fwork st = (fwork_at st s + fwork_at st (other s))%nat.
Proof. intros st s. unfold fwork. destruct s; cbn [other]; lia. Qed.
Lemma line_app : forall a b, line_work (a ++ b) = (line_work a + line_work b)%nat.
Proof. intros. unfold line_work. rewrite map_app, list_sum_app. reflexivity. Qed.
Lemma line_cons : forall x b, line_work (x :: b) = ((match x with Req _ => 3 | Ref _ => 1 end) + line_work b)%nat.
Proof. reflexivity. Qed.
Lemma post_eq : forall (st : fnet) m s x, fn_wire st (other s) = map on_line (m (other s)) -> msg_ok x ->
  fpost st s (msg_frame x) = Some (set_fwire st (other s) (map on_line (m (other s) ++ [x]))).
Proof. intros st m s x W M. unfold fpost. rewrite (msg_bytes x M), W, map_app. reflexivity. Qed.

(** ** Moves *)
Lemma perm_receive : forall {A} (x : A) a b r, Permutation ((x :: a) ++ b ++ r) (a ++ (b ++ [x]) ++ r).
Proof. intros. rewrite <- app_assoc. cbn [app]. rewrite !app_assoc. apply Permutation_middle. Qed.
Lemma perm_run : forall {A} (x : A) f a b r q, Permutation (f ++ (a ++ x :: b) ++ r ++ q) (f ++ (a ++ b) ++ (r ++ [x]) ++ q).
Proof. intros. apply Permutation_app_head. rewrite <- !app_assoc. apply Permutation_app_head. cbn [app]. rewrite !app_assoc. apply Permutation_middle. Qed.
Lemma perm_refuse : forall {A} (x : A) f a b r q, Permutation (f ++ (a ++ x :: b) ++ r ++ q) (f ++ (a ++ b) ++ r ++ q ++ [x]).
Proof. intros. apply Permutation_app_head. rewrite <- !app_assoc. apply Permutation_app_head. cbn [app]. rewrite !app_assoc. apply Permutation_cons_append. Qed.
Lemma m_fire : forall st m seen tf s d md, finv st m seen tf -> sendable d md -> len (fp_calls (fn_peer st s)) < 2^62 ->
  exists st' m', do_fmove w tbl st (MFire s d md) = Some st' /\ finv st' m' seen tf.
Proof.
  intros st m seen tf s d md I Sd L. cbn [do_fmove]. assert (C := fi_counter _ _ _ _ I s).
  rewrite Next_closed by (rewrite C; change (2^63) with 9223372036854775808; change (2^62) with 4611686018427387904 in L; lia).
  set (c := mkFCall (kth_id s (fp_counter (fn_peer st s) + 1)) d md).
  assert (Gc : good c) by (split; [apply kth_id_bound|exact Sd]).
  assert (Pc : N.odd (fc_sid c) = parity s) by (apply parity_sid; lia).
  set (p := mkFP _ _ _ _ _ _ _ _).
  exists (set_fwire (set_fpeer st s p) (other s) (map on_line (m (other s) ++ [Req c]))), (put m (other s) (m (other s) ++ [Req c])).
  split. { apply (post_eq (set_fpeer st s p) m s (Req c)); [exact (fi_wire _ _ _ _ I (other s))|exact Gc]. }
  constructor.
  - intro X. unfold put. destruct (side_cases s X) as [->| ->]; sides; [apply I|reflexivity].
  - intro X. destruct (side_cases s X) as [->| ->]; sides; apply I.
  - intro X. unfold put. destruct (side_cases s X) as [->| ->]; sides.
    + subst p. cbn [fp_calls]. rewrite reqs_app, !map_app. cbn [reqs flat_map map app].
      etransitivity; [apply Permutation_app_tail; apply (fi_perm _ _ _ _ I s)|]. rewrite <- !app_assoc. apply Permutation_app_head. rewrite !app_assoc. symmetry. apply Permutation_cons_append.
    + assert (Q := fi_perm _ _ _ _ I (other s)). rewrite other_other in Q. rewrite !refs_app in *. cbn [refs flat_map]. rewrite app_nil_r. exact Q.
  - intro X. destruct (side_cases s X) as [->| ->]; sides; apply I.
  - intros X c'. destruct (side_cases s X) as [->| ->]; sides; [|apply I]. subst p. cbn [fp_calls]. intro Hc. apply in_app_iff in Hc. destruct Hc as [Hc|[<-|[]]]; [apply (fi_good _ _ _ _ I s _ Hc)|]. auto.
  - intros X c'. unfold put. destruct (side_cases s X) as [->| ->]; sides.
    + subst p. cbn [fp_calls]. rewrite reqs_app. cbn [reqs flat_map app]. intro Hc. apply in_app_iff. rewrite !in_app_iff in Hc. cbn [In] in *.
      assert (Q := fi_reqs _ _ _ _ I s c'). rewrite in_app_iff in Q. tauto.
    + assert (Q := fi_reqs _ _ _ _ I (other s) c'). rewrite other_other in Q. exact Q.
  - intro X. destruct (side_cases s X) as [->| ->]; sides; [|apply I]. replace (reg_of s p) with (reg_of s (fn_peer st s)) by (destruct s; reflexivity). apply I.
  - intro X. destruct (side_cases s X) as [->| ->]; sides; [apply I|]. replace (reg_of (other s) p) with (reg_of (other s) (fn_peer st s)) by (destruct s; reflexivity).
    assert (Q := fi_reg _ _ _ _ I (other s)). rewrite other_other in Q. exact Q.
  - intro X. destruct (side_cases s X) as [->| ->]; sides; [|apply I]. apply (fi_errors _ _ _ _ I s).
  - intro X. destruct (side_cases s X) as [->| ->]; sides; [|apply I]. subst p. cbn [fp_counter fp_calls]. rewrite C. unfold len. rewrite app_length. cbn [length]. lia.
Qed.

Lemma handle_fnf : forall Y get c, wf (fc_md c) ->
  exists t, @handle H unit (tbl Y) get (w Y) FNF (fc_sid c) (fc_data c) (fc_md c) 1 = Ret t /\ task_is (w Y) t (fate (other Y) c) /\ t <> [].
Proof.
  intros Y get c W. unfold DispatchModel.handle, FnfSpec.fate, handler_for. rewrite other_other. set (md := fc_md c) in *. destruct (N.ltb_spec (len md) 8) as [L|L].
  - eexists. split; [reflexivity|]. split; [reflexivity|discriminate].
  - rewrite get_be4 by (assumption || lia). cbn [bind].
    assert (P : match w Y with
                | Host => do rest <- slice_from md 4 ; do p <- get_be 4 rest ; Ret (if p =? 0 then None else get p)
                | _ => Ret None
                end = @Ret derr _ (parent_of get (w Y) md)).
    { destruct (w Y); try reflexivity. rewrite CallProofs.slice_ok by lia. cbn [bind]. change (N.to_nat 4) with 4%nat.
      rewrite get_be4; [reflexivity|apply wf_skipn; exact W|]. rewrite len_skipn. lia. }
    rewrite P. cbn [bind]. rewrite (get_from_slot get _ _ (Few Y FNF)). cbn [bind]. unfold InvokeProofs.slot.
    destruct (nth_error (tbl Y FNF) (N.to_nat (number4 md))) as [[h|]|] eqn:Q; try (eexists; split; [reflexivity|]; split; [reflexivity|discriminate]).
    assert (R : (if strips (w Y) FNF then slice_from md 8 else Ret md) = @Ret derr _ (handler_metadata (w Y) FNF md)).
    { destruct (w Y); try reflexivity; cbn [strips handler_metadata]; rewrite CallProofs.slice_ok by lia; reflexivity. }
    rewrite R. cbn [bind]. eexists. split; [reflexivity|]. cbn [task_is fr_handler fr_sid fr_data fr_md]. split; [eexists; reflexivity|]. destruct (registers (w Y) FNF); discriminate.
Qed.
Lemma received_request : forall Y (p : fpeer) c, good c ->
  exists t, freceived w tbl Y p (on_line (Req c)) = Ret t /\ task_is (w Y) t (fate (other Y) c) /\ t <> [].
Proof.
  intros Y p c G. assert (M : msg_ok (Req c)) by exact G. assert (W : wf (fc_md c)) by apply G.
  destruct (handle_fnf Y (fget p) c W) as (t & E & T). exists t. split; [|exact T]. rewrite <- E. unfold freceived. destruct (w Y) eqn:WY.
  - rewrite (msg_parse _ M). reflexivity.
  - destruct (recv_request (tbl Y) (fget p) (fun _ => SResp false false) Host _ _ (msg_parse _ M)) as (k & K & ->). cbn in K. destruct k; try discriminate K. reflexivity.
  - destruct (recv_request (tbl Y) (fget p) (fun _ => SResp false false) Guest _ _ (msg_parse _ M)) as (k & K & ->). cbn in K. destruct k; try discriminate K. reflexivity.
Qed.
Lemma received_refusal : forall Y (p : fpeer) sid e, msg_ok (Ref (sid, e)) -> fget p sid = None ->
  freceived w tbl Y p (on_line (Ref (sid, e))) = match w Y with Peer => Fail (NotFound sid) | _ => Ret [] end.
Proof.
  intros Y p sid e M G. unfold freceived. destruct (w Y).
  - rewrite (msg_parse _ M). apply (peer_unknown (tbl Y) (fget p) (fun _ => SResp false false) (FramesModel.FError sid 0 e) eq_refl). exact G.
  - rewrite (recv_stream (tbl Y) (fget p) (fun _ => SResp false false) Host _ _ (msg_parse _ M) eq_refl). cbn [msg_frame frame_sid]. rewrite G. reflexivity.
  - rewrite (recv_stream (tbl Y) (fget p) (fun _ => SResp false false) Guest _ _ (msg_parse _ M) eq_refl). cbn [msg_frame frame_sid]. rewrite G. reflexivity.
Qed.

Lemma m_receive : forall st m seen tf s, finv st m seen tf -> fn_wire st s <> [] ->
  exists st' m' seen' tf', do_fmove w tbl st (MFReceive s) = Some st' /\ finv st' m' seen' tf' /\ (fwork st' < fwork st)%nat.
Proof.
  intros st m seen tf s I Ne. cbn [do_fmove]. rewrite (fi_wire _ _ _ _ I) in *. destruct (m s) as [|x rest] eqn:Ms; [exfalso; apply Ne; reflexivity|]. clear Ne. cbn [map].
  assert (M : msg_ok x) by (apply (msgs_ok _ _ _ _ I s); rewrite Ms; apply in_or_app; right; left; reflexivity).
  assert (Po := fi_perm _ _ _ _ I (other s)). rewrite other_other in Po. assert (Ps := fi_perm _ _ _ _ I s).
  assert (Ro := fi_reqs _ _ _ _ I (other s)). rewrite other_other in Ro. assert (Rs := fi_reqs _ _ _ _ I s).
  assert (Go := fi_reg _ _ _ _ I (other s)). rewrite other_other in Go.
  destruct x as [c|[sid e]].
  - destruct (received_request s (fn_peer st s) c M) as (t & -> & T & Nt). replace (match t with [] => fp_tasks (fn_peer st s) | _ => fp_tasks (fn_peer st s) ++ [t] end) with (fp_tasks (fn_peer st s) ++ [t]) by (destruct t; [congruence|reflexivity]).
    set (p := mkFP _ _ _ _ _ _ _ _). eexists. exists (put m s rest), (put seen s (seen s ++ [Req c])), (put tf s (tf s ++ [fate (other s) c])). split; [reflexivity|].
    match goal with |- finv ?a ?b ?c ?d /\ _ => assert (I' : finv a b c d) end.
    { constructor.
      - intro X. unfold put. destruct (side_cases s X) as [->| ->]; sides; [reflexivity|apply I].
      - intro X. unfold put. destruct (side_cases s X) as [->| ->]; sides; [|apply I]. subst p. cbn [fp_in]. rewrite map_app, (fi_seen _ _ _ _ I). reflexivity.
      - intro X. unfold put. destruct (side_cases s X) as [->| ->]; sides; subst p; cbn [fp_calls fp_runs].
        + rewrite Ms in Ps. rewrite !refs_app in *. cbn [refs flat_map app] in *. rewrite app_nil_r. exact Ps.
        + rewrite Ms in Po. etransitivity; [exact Po|]. apply perm_receive.
      - intro X. unfold put. destruct (side_cases s X) as [->| ->]; sides; [|apply I]. subst p. cbn [fp_tasks]. apply Forall2_app; [apply I|]. constructor; [exact T|constructor].
      - intros X c'. destruct (side_cases s X) as [->| ->]; sides; apply I.
      - intros X c'. unfold put. destruct (side_cases s X) as [->| ->]; sides; subst p; cbn [fp_calls].
        + apply Rs.
        + intro Hc. apply Ro. rewrite Ms. rewrite reqs_app in Hc. cbn [reqs flat_map app] in *. cbn [In]. rewrite !in_app_iff in *. cbn [In] in Hc. tauto.
      - intro X. destruct (side_cases s X) as [->| ->]; sides; [|apply I]. replace (reg_of s p) with (reg_of s (fn_peer st s)) by (destruct s; reflexivity). apply I.
      - intro X. destruct (side_cases s X) as [->| ->]; sides; [apply I|]. replace (reg_of (other s) p) with (reg_of (other s) (fn_peer st s)) by (destruct s; reflexivity). exact Go.
      - intro X. unfold put. destruct (side_cases s X) as [->| ->]; sides; [|apply I]. subst p. cbn [fp_errors]. rewrite refs_app. cbn [refs flat_map]. rewrite app_nil_r. apply I.
      - intro X. destruct (side_cases s X) as [->| ->]; sides; apply I. }
    split; [exact I'|]. rewrite (work_other _ s), (work_other st s), !(work_side _ _ _ _ I'), !(work_side _ _ _ _ I). unfold put. sides. subst p. cbn [fp_tasks]. rewrite Ms, app_length, line_cons. cbn [length]. lia.
  - destruct (ref_good _ _ _ _ I s sid e) as [_ Pr]; [rewrite Ms; apply in_refs; apply in_or_app; right; left; reflexivity|].
    assert (G : fget (fn_peer st s) sid = None) by (rewrite (get_eq s _ _ Pr), (holds_get _ _ _ (fi_own _ _ _ _ I s)); reflexivity).
    rewrite (received_refusal s (fn_peer st s) sid e M G).
    set (p := mkFP (fp_counter (fn_peer st s)) (fp_odd (fn_peer st s)) (fp_even (fn_peer st s)) (fp_calls (fn_peer st s)) (fp_tasks (fn_peer st s)) (fp_runs (fn_peer st s)) (fp_in (fn_peer st s) ++ [on_line (Ref (sid, e))])
                   (match w s with Peer => fp_errors (fn_peer st s) ++ [NotFound sid] | _ => fp_errors (fn_peer st s) end)).
    exists (set_fwire (set_fpeer st s p) s (map on_line rest)), (put m s rest), (put seen s (seen s ++ [Ref (sid, e)])), tf. split; [subst p; destruct (w s); reflexivity|].
    match goal with |- finv ?a ?b ?c ?d /\ _ => assert (I' : finv a b c d) end.
    { constructor.
      - intro X. unfold put. destruct (side_cases s X) as [->| ->]; sides; [reflexivity|apply I].
      - intro X. unfold put. destruct (side_cases s X) as [->| ->]; sides; [|apply I]. subst p. cbn [fp_in]. rewrite map_app, (fi_seen _ _ _ _ I). reflexivity.
      - intro X. unfold put. destruct (side_cases s X) as [->| ->]; sides; subst p; cbn [fp_calls fp_runs].
        + rewrite <- app_assoc. cbn [app]. rewrite <- Ms. exact Ps.
        + rewrite Ms in Po. cbn [reqs flat_map app] in Po. exact Po.
      - intro X. destruct (side_cases s X) as [->| ->]; sides; apply I.
      - intros X c'. destruct (side_cases s X) as [->| ->]; sides; apply I.
      - intros X c'. unfold put. destruct (side_cases s X) as [->| ->]; sides; subst p; cbn [fp_calls].
        + apply Rs.
        + intro Hc. apply Ro. rewrite Ms. rewrite reqs_app in Hc. cbn [reqs flat_map app] in *. rewrite app_nil_r in Hc. exact Hc.
      - intro X. destruct (side_cases s X) as [->| ->]; sides; [|apply I]. replace (reg_of s p) with (reg_of s (fn_peer st s)) by (destruct s; reflexivity). apply I.
      - intro X. destruct (side_cases s X) as [->| ->]; sides; [apply I|]. replace (reg_of (other s) p) with (reg_of (other s) (fn_peer st s)) by (destruct s; reflexivity). exact Go.
      - intro X. unfold put. destruct (side_cases s X) as [->| ->]; sides; [|apply I]. subst p. cbn [fp_errors]. rewrite refs_app, (fi_errors _ _ _ _ I s). destruct (w s); [rewrite map_app; reflexivity|reflexivity|reflexivity].
      - intro X. destruct (side_cases s X) as [->| ->]; sides; apply I. }
    split; [exact I'|]. rewrite (work_other _ s), (work_other st s), !(work_side _ _ _ _ I'), !(work_side _ _ _ _ I). unfold put. sides. subst p. cbn [fp_tasks]. rewrite Ms, line_cons. lia.
Qed.

Lemma m_task : forall st m seen tf s i t, finv st m seen tf -> nth_error (fp_tasks (fn_peer st s)) i = Some t ->
  exists st' m' tf', do_fmove w tbl st (MFTask s i) = Some st' /\ finv st' m' seen tf' /\ (fwork st' < fwork st)%nat.
Proof.
  intros st m seen tf s i t I E. cbn [do_fmove]. destruct (CallProofs.cut_some _ _ _ E) as (a & b & -> & Et).
  assert (Po := fi_perm _ _ _ _ I (other s)). rewrite other_other in Po. assert (Ps := fi_perm _ _ _ _ I s).
  assert (Ro := fi_reqs _ _ _ _ I (other s)). rewrite other_other in Ro. assert (Rs := fi_reqs _ _ _ _ I s).
  assert (Go := fi_reg _ _ _ _ I (other s)). rewrite other_other in Go.
  assert (T := fi_tasks _ _ _ _ I s). rewrite Et in T. apply Forall2_app_inv_l in T. destruct T as (fa & fb' & Ta & Tb & Ef). inversion Tb as [|? x ? fb Tx Tb' E1 E2]. subst fb'. clear Tb E1.
  assert (Fc : exists c, In c (fp_calls (fn_peer st (other s))) /\ x = fate (other s) c).
  { apply (from_call _ _ _ _ I (other s)). rewrite other_other, Ef. apply in_or_app. left. apply in_elt. }
  destruct Fc as (c & Hc & Ex). destruct (fi_good _ _ _ _ I _ _ Hc) as [[Gs Gd] Gp]. assert (Fs := fate_sid (other s) c). rewrite <- Ex in Fs.
  assert (Tab : Forall2 (task_is (w s)) (a ++ b) (fa ++ fb)) by (apply Forall2_app; assumption).
  destruct x as [r|[sid e]]; cbn [task_is] in Tx.
  - destruct Tx as (parent & ->). set (p := mkFP _ _ _ _ (a ++ b) _ _ _).
    assert (Pr : N.odd (fr_sid r) = parity (other s)) by (rewrite Fs; exact Gp).
    set (reg := if registers (w s) FNF then [ARegister (fr_sid r)] else [] : list (act H unit)).
    destruct (holds_add _ _ (fr_sid r) Go) as (lk & Al & Hl).
    set (p' := if registers (w s) FNF then set_reg (other s) p lk else p).
    set (p'' := mkFP (fp_counter p') (fp_odd p') (fp_even p') (fp_calls p') (fp_tasks p') (fp_runs p' ++ [r]) (fp_in p') (fp_errors p')).
    assert (Q : exists st', fperform_all (set_fpeer st s p) s (reg ++ [ARun FNF (fr_handler r) (fr_sid r) (fr_data r) (fr_md r) parent 1]) = Some st' /\ fn_wire st' = fn_wire st /\ fn_peer st' s = p'' /\ fn_peer st' (other s) = fn_peer st (other s)).
    { subst reg p'' p'. destruct (registers (w s) FNF); cbn [app fperform_all fperform].
      - sides. rewrite (register_eq (other s) _ _ Pr). replace (reg_of (other s) p) with (reg_of (other s) (fn_peer st s)) by (destruct s; reflexivity). rewrite Al. sides. eexists. split; [reflexivity|]. sides. split; [reflexivity|]. split; [destruct r; reflexivity|reflexivity].
      - sides. eexists. split; [reflexivity|]. sides. split; [reflexivity|]. split; [destruct r; reflexivity|reflexivity]. }
    destruct Q as (st' & Q & Qw & Qs & Qo). exists st', m, (put tf s (fa ++ fb)). split; [exact Q|].
    assert (K : fp_calls p'' = fp_calls (fn_peer st s) /\ fp_tasks p'' = a ++ b /\ fp_runs p'' = fp_runs (fn_peer st s) ++ [r] /\ fp_in p'' = fp_in (fn_peer st s) /\ fp_errors p'' = fp_errors (fn_peer st s) /\ fp_counter p'' = fp_counter (fn_peer st s)
      /\ reg_of s p'' = reg_of s (fn_peer st s)) by (subst p'' p'; destruct (registers (w s) FNF), s; repeat split).
    destruct K as (K1 & K2 & K3 & K4 & K5 & K6 & K7).
    assert (K8 : holds (reg_of (other s) p'') (registered_for (w s) (fp_runs p''))).
    { rewrite K3. unfold registered_for in *. subst p'' p'. destruct (registers (w s) FNF).
      - rewrite map_app. replace (reg_of (other s) _) with lk by (destruct s; reflexivity). exact Hl.
      - replace (reg_of (other s) _) with (reg_of (other s) (fn_peer st s)) by (destruct s; reflexivity). exact Go. }
    assert (I' : finv st' m seen (put tf s (fa ++ fb))).
    { constructor.
      - intro X. rewrite Qw. apply I.
      - intro X. destruct (side_cases s X) as [->| ->]; rewrite ?Qs, ?Qo, ?K4; apply I.
      - intro X. unfold put. destruct (side_cases s X) as [->| ->]; sides; rewrite ?Qs, ?Qo.
        + rewrite K1. exact Ps.
        + rewrite K3, map_app. etransitivity; [exact Po|]. rewrite Ef. apply perm_run.
      - intro X. unfold put. destruct (side_cases s X) as [->| ->]; sides; rewrite ?Qs, ?Qo; [rewrite K2; exact Tab|apply I].
      - intros X c'. destruct (side_cases s X) as [->| ->]; rewrite ?Qs, ?Qo, ?K1; apply I.
      - intros X c'. destruct (side_cases s X) as [->| ->]; rewrite ?Qs, ?Qo, ?K1; apply I.
      - intro X. destruct (side_cases s X) as [->| ->]; rewrite ?Qs, ?Qo, ?K7; apply I.
      - intro X. destruct (side_cases s X) as [->| ->]; rewrite ?other_other, ?Qs, ?Qo; [apply I|exact K8].
      - intro X. destruct (side_cases s X) as [->| ->]; rewrite ?Qs, ?Qo, ?K5; apply I.
      - intro X. destruct (side_cases s X) as [->| ->]; rewrite ?Qs, ?Qo, ?K6, ?K1; apply I. }
    split; [exact I'|]. rewrite (work_other _ s), (work_other st s), !(work_side _ _ _ _ I'), !(work_side _ _ _ _ I). rewrite Qs, Qo, K2, Et, !app_length. cbn [length]. lia.
  - subst t. destruct Fs as [Fs Fl]. assert (M : msg_ok (Ref (sid, e))) by (split; [rewrite Fs; exact Gs|change (2^32 - 13) with 4294967283; lia]).
    set (p := mkFP _ _ _ _ (a ++ b) _ _ _).
    exists (set_fwire (set_fpeer st s p) (other s) (map on_line (m (other s) ++ [Ref (sid, e)]))), (put m (other s) (m (other s) ++ [Ref (sid, e)])), (put tf s (fa ++ fb)).
    split. { cbn [fperform_all fperform]. change (FramesModel.FError sid 0 e) with (msg_frame (Ref (sid, e))). rewrite (post_eq (set_fpeer st s p) m s (Ref (sid, e))); [reflexivity|exact (fi_wire _ _ _ _ I (other s))|exact M]. }
    match goal with |- finv ?a ?b ?c ?d /\ _ => assert (I' : finv a b c d) end.
    { constructor.
      - intro X. unfold put. destruct (side_cases s X) as [->| ->]; sides; [apply I|reflexivity].
      - intro X. destruct (side_cases s X) as [->| ->]; sides; apply I.
      - intro X. unfold put. destruct (side_cases s X) as [->| ->]; sides; subst p; cbn [fp_calls fp_runs].
        + rewrite reqs_app. cbn [reqs flat_map]. rewrite app_nil_r. exact Ps.
        + etransitivity; [exact Po|]. rewrite Ef, (app_assoc (seen (other s))), (refs_app _ [_]), (map_app inr). apply perm_refuse.
      - intro X. unfold put. destruct (side_cases s X) as [->| ->]; sides; [exact Tab|apply I].
      - intros X c'. destruct (side_cases s X) as [->| ->]; sides; apply I.
      - intros X c'. unfold put. destruct (side_cases s X) as [->| ->]; sides; subst p; cbn [fp_calls].
        + rewrite reqs_app. cbn [reqs flat_map]. rewrite app_nil_r. apply Rs.
        + apply Ro.
      - intro X. destruct (side_cases s X) as [->| ->]; sides; [|apply I]. replace (reg_of s p) with (reg_of s (fn_peer st s)) by (destruct s; reflexivity). apply I.
      - intro X. destruct (side_cases s X) as [->| ->]; sides; [apply I|]. replace (reg_of (other s) p) with (reg_of (other s) (fn_peer st s)) by (destruct s; reflexivity). exact Go.
      - intro X. destruct (side_cases s X) as [->| ->]; sides; apply I.
      - intro X. destruct (side_cases s X) as [->| ->]; sides; apply I. }
    split; [exact I'|]. rewrite (work_other _ s), (work_other st s), !(work_side _ _ _ _ I'), !(work_side _ _ _ _ I). unfold put. sides. subst p. cbn [fp_tasks]. rewrite Et, line_app, line_cons, !app_length. cbn [length]. change (line_work []) with 0%nat. lia.
Qed.

(** ** Executions *)
Lemma move_inv : forall st m seen tf mv st', finv st m seen tf -> fallowed st mv -> do_fmove w tbl st mv = Some st' ->
  exists m' seen' tf', finv st' m' seen' tf' /\ (finner mv = true -> (fwork st' < fwork st)%nat).
Proof.
  intros st m seen tf mv st' I A D. destruct mv as [s d md|s|s i]; cbn [fallowed] in A.
  - destruct A as [A1 A2]. destruct (m_fire st m seen tf s d md I A1 A2) as (x & m' & E & I'). assert (x = st') by congruence. subst x. exists m', seen, tf. split; [exact I'|discriminate].
  - assert (Ne : fn_wire st s <> []) by (intro Z; cbn [do_fmove] in D; rewrite Z in D; discriminate D).
    destruct (m_receive st m seen tf s I Ne) as (x & m' & seen' & tf' & E' & I' & L). assert (x = st') by congruence. subst x. exists m', seen', tf'. auto.
  - destruct (nth_error (fp_tasks (fn_peer st s)) i) as [t|] eqn:E; [|cbn [do_fmove] in D; unfold cut in D; rewrite E in D; discriminate D].
    destruct (m_task st m seen tf s i t I E) as (x & m' & tf' & E' & I' & L). assert (x = st') by congruence. subst x. exists m', seen, tf'. auto.
Qed.
Lemma reach_inv : forall st, fnet_reach w tbl st -> exists m seen tf, finv st m seen tf.
Proof.
  intros st R. induction R as [|st mv st' R IH A D].
  - exists (fun _ => []), (fun _ => []), (fun _ => []). exact finv_init.
  - destruct IH as (m & seen & tf & I). destruct (move_inv _ _ _ _ _ _ I A D) as (m' & seen' & tf' & I' & _). eauto.
Qed.

Lemma lefts_app : forall {A B} (a b : list (A + B)), lefts (a ++ b) = lefts a ++ lefts b.
Proof. intros. apply flat_map_app. Qed.
Lemma rights_app : forall {A B} (a b : list (A + B)), rights (a ++ b) = rights a ++ rights b.
Proof. intros. apply flat_map_app. Qed.
Lemma lefts_inl : forall {A B} (l : list A), lefts (map (@inl A B) l) = l.
Proof. induction l as [|x l IH]; [reflexivity|]. cbn. f_equal. exact IH. Qed.
Lemma lefts_inr : forall {A B} (l : list B), lefts (map (@inr A B) l) = [].
Proof. induction l as [|x l IH]; [reflexivity|]. exact IH. Qed.
Lemma rights_inl : forall {A B} (l : list A), rights (map (@inl A B) l) = [].
Proof. induction l as [|x l IH]; [reflexivity|]. exact IH. Qed.
Lemma rights_inr : forall {A B} (l : list B), rights (map (@inr A B) l) = l.
Proof. induction l as [|x l IH]; [reflexivity|]. cbn. f_equal. exact IH. Qed.
Lemma refusals_refs : forall st m seen tf, finv st m seen tf -> forall X, refusals (fp_in (fn_peer st X)) = refs (seen X).
Proof.
  intros st m seen tf I X. rewrite (fi_seen _ _ _ _ I). assert (K : forall x, In x (seen X) -> msg_ok x) by (intros x Hx; apply (msgs_ok _ _ _ _ I X); apply in_or_app; auto).
  unfold refusals, refs. induction (seen X) as [|x l IH]; [reflexivity|]. cbn [map flat_map]. rewrite (msg_parse x) by (apply K; left; reflexivity). f_equal; [destruct x as [c|[sid e]]; reflexivity|]. apply IH. intros y Hy. apply K. right. exact Hy.
Qed.

Lemma never_more : forall st, fnet_reach w tbl st -> forall X,
  (exists more, Permutation (due_runs w tbl X (fp_calls (fn_peer st X))) (fp_runs (fn_peer st (other X)) ++ more))
  /\ (exists more, Permutation (due_refusals w tbl X (fp_calls (fn_peer st X))) (refusals (fp_in (fn_peer st X)) ++ more)).
Proof.
  intros st R X. destruct (reach_inv _ R) as (m & seen & tf & I). rewrite (refusals_refs _ _ _ _ I). assert (P := fi_perm _ _ _ _ I X). split.
  - exists (lefts (map (fate X) (reqs (m (other X)))) ++ lefts (tf (other X))). unfold due_runs. etransitivity; [apply Permutation_flat_map; exact P|].
    match goal with |- Permutation (flat_map _ ?l) ?r => change (Permutation (lefts l) r) end.
    rewrite !lefts_app, lefts_inl, lefts_inr, app_nil_r. rewrite app_assoc. apply Permutation_app_comm.
  - exists (refs (m X) ++ rights (map (fate X) (reqs (m (other X)))) ++ rights (tf (other X))). unfold due_refusals. etransitivity; [apply Permutation_flat_map; exact P|].
    match goal with |- Permutation (flat_map _ ?l) ?r => change (Permutation (rights l) r) end.
    rewrite !rights_app, rights_inl, rights_inr, refs_app. cbn [app]. rewrite (app_assoc (rights _) (rights _)), (app_assoc (refs (seen X))). apply Permutation_app_comm.
Qed.
Lemma at_rest_all : forall st, fnet_reach w tbl st -> fat_rest st -> forall X,
  Permutation (due_runs w tbl X (fp_calls (fn_peer st X))) (fp_runs (fn_peer st (other X))) /\ Permutation (due_refusals w tbl X (fp_calls (fn_peer st X))) (refusals (fp_in (fn_peer st X))).
Proof.
  intros st R Q X. destruct (reach_inv _ R) as (m & seen & tf & I). rewrite (refusals_refs _ _ _ _ I). assert (P := fi_perm _ _ _ _ I X).
  assert (Z : forall s, m s = []) by (intro s; destruct (Q s) as [Q1 _]; rewrite (fi_wire _ _ _ _ I) in Q1; destruct (m s); [reflexivity|discriminate Q1]).
  assert (T : forall s, tf s = []) by (intro s; destruct (Q s) as [_ Q2]; assert (F := fi_tasks _ _ _ _ I s); rewrite Q2 in F; inversion F; reflexivity).
  rewrite !Z, T, app_nil_r in P. cbn [reqs flat_map map app] in P. split.
  - unfold due_runs. etransitivity; [apply Permutation_flat_map; exact P|]. match goal with |- Permutation (flat_map _ ?l) ?r => change (Permutation (lefts l) r) end. rewrite lefts_app, lefts_inl, lefts_inr, app_nil_r. reflexivity.
  - unfold due_refusals. etransitivity; [apply Permutation_flat_map; exact P|]. match goal with |- Permutation (flat_map _ ?l) ?r => change (Permutation (rights l) r) end. rewrite rights_app, rights_inl, rights_inr. reflexivity.
Qed.
Lemma errors_proof : forall st, fnet_reach w tbl st -> forall X,
  fp_errors (fn_peer st X) = match w X with Peer => map (fun r => NotFound (fst r)) (refusals (fp_in (fn_peer st X))) | _ => [] end.
Proof. intros st R X. destruct (reach_inv _ R) as (m & seen & tf & I). rewrite (refusals_refs _ _ _ _ I). apply (fi_errors _ _ _ _ I). Qed.
Lemma registered_proof : forall st, fnet_reach w tbl st -> forall X sid, N.odd sid = parity X ->
  fget (fn_peer st X) sid = None /\ (fget (fn_peer st (other X)) sid <> None <-> w (other X) <> Host /\ In sid (map fr_sid (fp_runs (fn_peer st (other X))))).
Proof.
  intros st R X sid P. destruct (reach_inv _ R) as (m & seen & tf & I). rewrite !(get_eq X _ _ P), (holds_get _ _ _ (fi_own _ _ _ _ I X)), (holds_get _ _ _ (fi_reg _ _ _ _ I X)). split; [reflexivity|].
  unfold registered_for.
  assert (K : registers (w (other X)) FNF = true <-> w (other X) <> Host) by (destruct (w (other X)); split; cbn; congruence).
  destruct (registers (w (other X)) FNF).
  - destruct (existsb (N.eqb sid) _) eqn:B.
    + apply existsb_exists in B. destruct B as (y & Hy & By). apply N.eqb_eq in By. subst y. split; [intros _; split; [apply K; reflexivity|exact Hy]|discriminate].
    + split; [congruence|]. intros [_ Hs]. assert (B' : existsb (N.eqb sid) (map fr_sid (fp_runs (fn_peer st (other X)))) = true) by (apply existsb_exists; exists sid; split; [exact Hs|apply N.eqb_refl]). congruence.
  - split; [intro Z; exfalso; apply Z; reflexivity|]. intros [Z _]. apply K in Z. discriminate Z.
Qed.
Lemma progress_proof : forall st, fnet_reach w tbl st -> ~ fat_rest st -> exists mv st', finner mv = true /\ do_fmove w tbl st mv = Some st'.
Proof.
  intros st R Q. destruct (reach_inv _ R) as (m & seen & tf & I).
  assert (K : forall s, (exists mv st', finner mv = true /\ do_fmove w tbl st mv = Some st') \/ (fn_wire st s = [] /\ fp_tasks (fn_peer st s) = [])).
  { intro s. destruct (fn_wire st s) eqn:W.
    - destruct (fp_tasks (fn_peer st s)) as [|t l] eqn:T; [auto|]. left. destruct (m_task st m seen tf s 0 t I) as (x & _ & _ & E & _); [rewrite T; reflexivity|]. exists (MFTask s 0), x. auto.
    - left. destruct (m_receive st m seen tf s I) as (x & _ & _ & _ & E & _); [congruence|]. exists (MFReceive s), x. auto. }
  destruct (K Client) as [?|K1]; [assumption|]. destruct (K Server) as [?|K2]; [assumption|]. exfalso. apply Q. intros []; assumption.
Qed.
Lemma works_proof : forall st mv st', fnet_reach w tbl st -> finner mv = true -> do_fmove w tbl st mv = Some st' -> (fwork st' < fwork st)%nat.
Proof.
  intros st mv st' R N D. destruct (reach_inv _ R) as (m & seen & tf & I). destruct (move_inv st m seen tf mv st' I) as (m' & seen' & tf' & _ & L); [|exact D|apply L; exact N]. destruct mv; try exact Logic.I. discriminate N.
Qed.
Lemma enabled_proof : forall st, fnet_reach w tbl st ->
  (forall s, fn_wire st s <> [] -> do_fmove w tbl st (MFReceive s) <> None) /\ (forall s i, (i < length (fp_tasks (fn_peer st s)))%nat -> do_fmove w tbl st (MFTask s i) <> None)
  /\ (forall s d md, fallowed st (MFire s d md) -> do_fmove w tbl st (MFire s d md) <> None).
Proof.
  intros st R. destruct (reach_inv _ R) as (m & seen & tf & I). split; [|split].
  - intros s Ne. destruct (m_receive st m seen tf s I Ne) as (x & _ & _ & _ & E & _). congruence.
  - intros s i L. destruct (nth_error (fp_tasks (fn_peer st s)) i) as [t|] eqn:T; [|apply nth_error_None in T; lia]. destruct (m_task st m seen tf s i t I T) as (x & _ & _ & E & _). congruence.
  - intros s d md [A1 A2]. destruct (m_fire st m seen tf s d md I A1 A2) as (x & _ & E & _). congruence.
Qed.
End Proofs.
