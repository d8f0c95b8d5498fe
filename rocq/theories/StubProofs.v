(** Proofs about stubs. *)
From Coq Require Import List NArith ZArith Lia Bool ZifyBool ZifyNat ZifyN.
From Verif Require Import Base BaseLemmas OutcomeModel OutcomeSpec OutcomeProofs OutcomeProps FramesModel InvokeModel LookupModel StreamIdModel MonoModel ProxyModel DispatchModel DispatchSpec DispatchProofs
  CallModel CallSpec CallInv CallProofs CallProps OperationsModel MsgpackModel MsgpackSpec MsgpackClient MsgpackIOProofs MsgpackProofs MsgpackReadProofs MsgpackSizeProofs MsgpackTreeProofs
  TransformModel TransformSpec TransformProofs StubModel StubSpec.
Import ListNotations.
Open Scope N_scope.

(** ** Records written by one schema and read by another *)
Lemma near_skippable : forall s, near s -> skippable (scal_mv s).
Proof.
  intros s N0. destruct s; try exact I. cbn [scal_mv skippable near] in *. unfold time_data.
  assert (L4 : forall v, len (be 4 v) = 4) by (intro; apply (be_len 4)). assert (L8 : forall v, len (be 8 v) = 8) by (intro; apply (be_len 8)).
  destruct (((0 <=? t_sec t)%Z && (t_sec t <? 2 ^ 32)%Z && (t_nsec t =? 0))) eqn:A; [rewrite L4; split; [reflexivity|discriminate]|].
  replace ((0 <=? t_sec t)%Z && (t_sec t <? 2 ^ 34)%Z) with true by lia. rewrite L8. split; [reflexivity|discriminate].
Qed.

Lemma field_tree : forall k v, field_ok k v -> field_near v -> exists x, calls_bytes (field_calls v) = mv_bytes x /\ mv_ok x /\ skippable x.
Proof.
  intros k v O N0. destruct k as [k|k|k], v as [s|[s|]|[l|]]; cbn [field_ok] in O; try contradiction; cbn [field_calls field_near] in *.
  - exists (scal_mv s). unfold calls_bytes; cbn [flat_map prim_bytes]. rewrite app_nil_r. split; [reflexivity|]. split; [apply scal_mv_ok, O|apply near_skippable, N0].
  - exists (scal_mv s). unfold calls_bytes; cbn [flat_map prim_bytes]. rewrite app_nil_r. split; [reflexivity|]. split; [apply scal_mv_ok, O|apply near_skippable, N0].
  - exists MNil. split; [reflexivity|]. split; exact I.
  - destruct O as [L O]. rewrite u32_small by assumption. exists (MArr (short_len 16 false (len l)) (map scal_mv l)). split; [|split].
    + unfold calls_bytes. cbn [flat_map prim_bytes mv_bytes]. rewrite len_map. f_equal. clear. induction l as [|x l IH]; [reflexivity|]. cbn [map flat_map prim_bytes]. rewrite IH. reflexivity.
    + cbn [mv_ok]. rewrite len_map. split; [apply short_len_not8|]. split; [apply short_len_limit; assumption|]. rewrite all_Forall, Forall_map. rewrite Forall_forall in *. intros s Hs. apply scal_mv_ok, O, Hs.
    + cbn [skippable]. rewrite all_Forall, Forall_map. rewrite Forall_forall in *. intros s Hs. apply near_skippable, N0, Hs.
  - exists MNil. split; [reflexivity|]. split; exact I.
Qed.

Definition known_of (sc' : schema) (e : env) (f : bytes * fkind) : bytes * option fval :=
  (fst f, if in_dec (list_eq_dec N.eq_dec) (fst f) (map fst sc') then Some (e (fst f)) else None).

Lemma struct_entries : forall sc sc' e, schema_ok sc -> record_ok sc e -> readable sc e sc' ->
  exists bss, calls_bytes (struct_calls sc e) = map_head (short_len 16 false (len sc)) (len sc) ++ concat bss /\ Forall2 (entry_enc sc') (map (known_of sc' e) sc) bss.
Proof.
  intros sc sc' e (_ & _ & N0) R Rd. unfold struct_calls.
  assert (X : forall sub, incl sub sc -> exists bss, calls_bytes (flat_map (fun f => inl (PVal (SStr (fst f))) :: field_calls (e (fst f))) sub) = concat bss /\
    Forall2 (entry_enc sc') (map (known_of sc' e) sub) bss).
  { induction sub as [|[n k] sub IH]; intro I0; [exists []; split; [reflexivity|constructor]|].
    destruct IH as (bss & E & F); [intros x Hx; apply I0; right; assumption|]. assert (Hn : In (n, k) sc) by (apply I0; left; reflexivity).
    unfold record_ok in R. rewrite Forall_forall in R, N0. specialize (R _ Hn). destruct (N0 _ Hn) as [N1 N2]. cbn [fst snd] in R, N1, N2.
    exists ((mv_bytes (scal_mv (SStr n)) ++ calls_bytes (field_calls (e n))) :: bss). split.
    - cbn [flat_map fst]. change (inl (PVal (SStr n)) :: field_calls (e n)) with ([inl (PVal (SStr n))] ++ field_calls (e n)).
      rewrite !calls_bytes_app, E. cbn [concat]. f_equal. unfold calls_bytes at 1. cbn [flat_map prim_bytes]. rewrite app_nil_r. reflexivity.
    - cbn [map]. constructor; [|assumption]. unfold known_of. cbn [fst]. destruct (Rd n k Hn) as [R1 R2]. destruct (in_dec (list_eq_dec N.eq_dec) n (map fst sc')) as [Y|Y].
      + apply in_map_iff in Y as ([m k'] & Q & Hk). cbn [fst] in Q. subst m. assert (Q := R1 _ Hk). subst k'.
        apply (known sc' _ n k); [apply short_len_limit; assumption|assumption|]. apply field_calls_enc. exact R.
      + destruct (field_tree k (e n) R (R2 Y)) as (x & -> & O & S). apply (unknown sc' _ n x); [apply short_len_limit; assumption|assumption..]. }
  destruct (X sc (incl_refl sc)) as (bss & E & F). exists bss. split; [|assumption].
  change (inl (PMap (len sc)) :: ?x) with ([inl (PMap (len sc))] ++ x). rewrite <- E. unfold calls_bytes. cbn [flat_map prim_bytes]. reflexivity.
Qed.

Lemma evolve : forall f64to32 pt sc sc' e e0 fuel, callable sc e -> NoDup (map fst sc') -> readable sc e sc' ->
  (length (calls_bytes (struct_calls sc e)) <= fuel)%nat ->
  exists e', codec_decode f64to32 pt sc' fuel e0 (calls_bytes (struct_calls sc e) ++ repeat 0 (N.to_nat (calls_excess (struct_calls sc e)))) = Ret e' /\
  forall n, e' n = if in_dec (list_eq_dec N.eq_dec) n (map fst sc) then if in_dec (list_eq_dec N.eq_dec) n (map fst sc') then e n else e0 n else e0 n.
Proof.
  intros f64to32 pt sc sc' e e0 fuel (So & Ro & B) ND Rd F. destruct (struct_entries sc sc' e So Ro Rd) as (bss & E & En). destruct So as (NDs & L & N0).
  assert (X := record_reads f64to32 pt sc' fuel (short_len 16 false (len sc)) (map (known_of sc' e) sc) bss e0 ND (short_len_not8 _ _)).
  rewrite len_map in X. specialize (X (short_len_limit _ _ _ L) En). rewrite <- E in X.
  assert (F' : (length (concat bss) <= fuel)%nat) by (rewrite E, app_length in F; lia). specialize (X F').
  eexists. split.
  - unfold codec_decode. specialize (X [] (repeat 0 (N.to_nat (calls_excess (struct_calls sc e))))). unfold at_ in X. cbn [app] in X. change (len (@nil N)) with 0 in X. unfold new_dr. rewrite X; [reflexivity|].
    unfold fits. rewrite len_app, len_repeat. change (len (@nil N)) with 0. lia.
  - intro n. rewrite (fold_put _ e0 e0) by reflexivity. assert (Mf : map fst (map (known_of sc' e) sc) = map fst sc) by (rewrite map_map; reflexivity).
    destruct (in_dec (list_eq_dec N.eq_dec) n (map fst sc)) as [Y|Y]; [|rewrite assign_other; [reflexivity|assumption|rewrite Mf; exact Y]].
    apply in_map_iff in Y as (f & <- & Hf). destruct (in_dec (list_eq_dec N.eq_dec) (fst f) (map fst sc')) as [Z|Z].
    + apply assign_in; [assumption|rewrite Mf; exact NDs|]. apply in_map_iff. exists f. split; [|exact Hf]. unfold known_of. destruct (in_dec (list_eq_dec N.eq_dec) (fst f) (map fst sc')); [reflexivity|contradiction].
    + clear X En E F F' bss L N0 Ro B Rd. revert e0. revert NDs Hf. clear Mf. induction sc as [|g sc IH]; intros NDs Hf e0; [contradiction|]. inversion NDs as [|? ? N1 N2]; subst. cbn [map fold_left]. destruct Hf as [->|Hf].
      * rewrite assign_other; [|assumption|rewrite map_map; exact N1]. unfold known_of at 1, assign. cbn [fst snd]. destruct (in_dec (list_eq_dec N.eq_dec) (fst f) (map fst sc')); [contradiction|reflexivity].
      * rewrite (IH N2 Hf). unfold known_of, assign. cbn [fst snd]. destruct (in_dec (list_eq_dec N.eq_dec) (fst g) (map fst sc')); [|reflexivity]. destruct (list_eq_dec N.eq_dec (fst f) (fst g)) as [Q|Q]; [rewrite Q in Z; contradiction|reflexivity].
Qed.

(** ** The wrapper and the reply *)
Section Stub.
Context (f64to32 : N -> N) (pt : bytes -> option gtime) (text : rerr -> bytes).

Lemma codec_bytes : forall sc e, callable sc e -> codec_encode sc e = Ret (calls_bytes (struct_calls sc e) ++ repeat 0 (N.to_nat (calls_excess (struct_calls sc e)))).
Proof.
  intros sc e (So & Ro & B). destruct (struct_calls_spec pt sc e So Ro) as [O _]. apply to_bytes_result; [apply same_calls_refl|assumption..].
Qed.

(** What the wrapper's callbacks send is the encoding of what the service makes of the arguments. *)
Lemma wrapper_calls : forall sc e v sid data, callable sc e -> NoDup (map fst (sv_schema v)) -> readable sc e (sv_schema v) ->
  codec_encode sc e = Ret data -> wrapper f64to32 pt text v sid data = Map (sv_body v sid (seen sc e v)) (encode_value text).
Proof.
  intros sc e v sid data C ND Rd E. rewrite (codec_bytes _ _ C) in E. injection E as <-. unfold wrapper.
  edestruct (evolve f64to32 pt sc (sv_schema v) e (sv_zero v)) as (e' & -> & V); [exact C|exact ND|exact Rd|rewrite app_length; apply le_S, Nat.le_add_r|].
  f_equal. f_equal. unfold seen. apply map_ext_in. intros f Hf. rewrite V.
  destruct (in_dec (list_eq_dec N.eq_dec) (fst f) (map fst sc)); [|reflexivity].
  destruct (in_dec (list_eq_dec N.eq_dec) (fst f) (map fst (sv_schema v))) as [|Y]; [reflexivity|]. contradict Y. apply in_map. exact Hf.
Qed.

Lemma answers_outcome : forall m, subscribe zero_value m answers = match outcome_of m with Some (inl (VPayload p)) => [inl p] | Some (inr x) => [inr x] | _ => [] end.
Proof.
  intro m. rewrite C55_subscribe. cbn [on_success on_error finally answers OutcomeModel.call]. destruct (outcome_of m) as [[[p|s]|x]|], (ended_with m); reflexivity.
Qed.

Lemma sees_nil : forall k, subscribe zero_value (stub_reply f64to32 pt text k []) closers = [].
Proof. intro k. reflexivity. Qed.
Lemma sees_error : forall k x, subscribe zero_value (stub_reply f64to32 pt text k [inr x]) closers = [inr x].
Proof. intros k x. reflexivity. Qed.

Lemma sees_wrapped : forall k v m o, returns v k -> (exists sid args, m = sv_body v sid args) -> subscribe zero_value (Map m (encode_value text)) answers = [o] ->
  exists r, outcome_of m = Some r /\ subscribe zero_value (stub_reply f64to32 pt text k [o]) closers = [r].
Proof.
  intros k v m o Rt (sid & args & ->) E. rewrite answers_outcome in E. cbn [outcome_of] in E. destruct (outcome_of (sv_body v sid args)) as [[x|x]|] eqn:Q; [| |discriminate E].
  - destruct (Rt _ _ _ Q) as (s & -> & K & O & B). destruct (transform_round f64to32 pt s O B) as (data & T1 & T2). unfold encode_value in E. rewrite T1 in E. injection E as <-.
    eexists. split; [reflexivity|]. apply C55_outcome. cbn [stub_reply map reply_call outcome_of decode_value]. rewrite <- K, T2. reflexivity.
  - injection E as <-. exists (inr x). split; reflexivity.
Qed.
End Stub.

Lemma stub_metadata_len : forall op, len (stub_metadata op) = 8.
Proof. intro op. unfold stub_metadata. rewrite len_app, be_len. reflexivity. Qed.
Lemma stub_metadata_wf : forall op, wf (stub_metadata op).
Proof. intro op. apply wf_app. split; [apply be_wf|]. repeat constructor. Qed.
Lemma stub_names : forall {H} (t : ikind -> list (option H)) op h, op < 2^32 -> names t RR (stub_metadata op) h <-> nth_error (t RR) (N.to_nat op) = Some (Some h).
Proof.
  intros H t op h L. unfold names.
  assert (Q : number4 (stub_metadata op) = op).
  { rewrite <- number4_unbe; [|apply stub_metadata_wf|rewrite stub_metadata_len; lia]. unfold stub_metadata. rewrite firstn_len_app by (symmetry; apply be_length). apply unbe_be_small. exact L. }
  rewrite Q, stub_metadata_len. split; [intros [_ X]; exact X|]. intro X. split; [lia|exact X].
Qed.

(** ** Executions *)
Section Runs.
Context {H : Type}.
Context (w : side -> site) (tbl : side -> ikind -> list (option H)).
Context (f64to32 : N -> N) (pt : bytes -> option gtime) (text : rerr -> bytes) (svc : H -> service).
Notation run_ok r := (forall o, r_out r = Some o -> wrapper_answers f64to32 pt text (svc (r_handler r)) (r_sid r) (r_data r) = [o]).

Lemma perform_runs : forall l (p p' : peer H), perform_all p l = Some p' -> p_runs p' = p_runs p.
Proof.
  assert (S : forall (p : peer H) k f, p_runs (set_call p k f) = p_runs p) by (intros; unfold set_call; destruct (nth_error (p_calls p) k); reflexivity).
  induction l as [|a l IH]; intros p p' E; cbn [perform_all] in E; [congruence|]. destruct (perform p a) as [q|] eqn:Q; [|discriminate E]. rewrite (IH _ _ E). clear - Q S.
  destruct a; cbn [perform] in Q; try discriminate Q; try (injection Q as <-; reflexivity).
  all: try (match goal with c : scall |- _ => destruct c end; try discriminate Q; injection Q as <-; rewrite ?S; reflexivity).
  all: try (match goal with k : ikind |- _ => destruct k end; try discriminate Q; injection Q as <-; reflexivity).
  all: unfold remove in Q; destruct (N.odd sid); [destruct (Remove (p_odd p) sid)|destruct (Remove (p_even p) sid)]; try discriminate Q; injection Q as <-; reflexivity.
Qed.

Lemma set_peer_runs : forall (st : net H) s p t, p_runs (n_peer (set_peer st s p) t) = if side_eqb t s then p_runs p else p_runs (n_peer st t).
Proof. intros. cbn [set_peer n_peer]. destruct (side_eqb t s); reflexivity. Qed.
Lemma post_runs : forall (st st' : net H) s f, post st s f = Some st' -> forall t, n_peer st' t = n_peer st t.
Proof. intros st st' s f E t. unfold post in E. destruct (frame_bytes f); try discriminate E. injection E as <-. reflexivity. Qed.

Lemma stub_runs : forall st, stub_reach w tbl f64to32 pt text svc st -> net_reach w tbl st /\ forall s r, In r (p_runs (n_peer st s)) -> run_ok r.
Proof.
  intros st R. induction R as [|st m st' R [N0 IH] A Sv D]; [split; [constructor|intros s r []]|]. split; [exact (n_move w tbl st m st' N0 A D)|].
  assert (Sd : forall t s : side, side_eqb t s = true -> t = s) by (intros [|] [|]; cbn; congruence).
  assert (K : forall s p, (forall r, In r (p_runs p) -> run_ok r) -> forall t r, In r (p_runs (n_peer (set_peer st s p) t)) -> run_ok r).
  { intros s p Hp t r Hr. rewrite set_peer_runs in Hr. destruct (side_eqb t s); [apply Hp, Hr|apply (IH t), Hr]. }
  destruct m as [s data md|s k|s|s i|s i o]; cbn [do_move served] in D, Sv.
  - destruct (Next 2 s (p_counter (n_peer st s))) as [[c [sid q]]|]; [|discriminate D]. injection D as <-. apply K. intros r Hr. exact (IH s r Hr).
  - destruct (nth_error (p_calls (n_peer st s)) k) as [c|]; [|discriminate D]. destruct (register (n_peer st s) (c_sid c) k) as [p|] eqn:G; [|discriminate D].
    intros t r Hr. rewrite (post_runs _ _ _ _ D) in Hr. revert t r Hr. apply K. intros r Hr.
    assert (Q : p_runs p = p_runs (n_peer st s)).
    { unfold register in G. destruct (N.odd (c_sid c)); [destruct (Add (p_odd (n_peer st s)) (c_sid c) k)|destruct (Add (p_even (n_peer st s)) (c_sid c) k)]; try discriminate G; injection G as <-; reflexivity. }
    unfold set_call in Hr. destruct (nth_error (p_calls p) k); cbn [p_runs] in Hr; rewrite Q in Hr; exact (IH s r Hr).
  - destruct (n_wire st s) as [|bs rest]; [discriminate D|]. destruct (received w tbl s (n_peer st s) bs) as [l|x|]; [| |discriminate D].
    + destruct (perform_all (n_peer st s) l) as [p|] eqn:P; [|discriminate D]. injection D as <-. cbn [set_wire n_peer]. apply K. intros r Hr. rewrite (perform_runs _ _ _ P) in Hr. exact (IH s r Hr).
    + injection D as <-. exact IH.
  - destruct (cut i (p_tasks (n_peer st s))) as [[[l t0] q]|]; [|discriminate D]. destruct t0; try discriminate D.
    + intros t r Hr. rewrite (post_runs _ _ _ _ D) in Hr. revert t r Hr. apply K. intros r Hr. exact (IH s r Hr).
    + injection D as <-. apply K. cbn [p_runs]. intros r Hr. apply in_app_or in Hr as [Hr|[<-|[]]]; [exact (IH s r Hr)|]. intros o E. discriminate E.
  - unfold cut in D. destruct (nth_error (p_runs (n_peer st s)) i) as [[h sid d m0 [o'|]]|] eqn:E; [discriminate D| |discriminate D]. intros t r Hr. rewrite (post_runs _ _ _ _ D) in Hr. revert t r Hr. apply K. cbn [p_runs]. intros r Hr.
    apply in_app_or in Hr as [Hr|[<-|Hr]].
    + apply (IH s). rewrite <- (firstn_skipn i). apply in_or_app. left. exact Hr.
    + intros o' Q. cbn [r_out r_handler r_sid r_data] in *. assert (o = o') by congruence. subst o'. exact (Sv _ eq_refl).
    + apply (IH s). rewrite <- (firstn_skipn (S i)). apply in_or_app. right. exact Hr.
Qed.

Lemma stub_run : forall st s c o sc op e h k, stub_reach w tbl f64to32 pt text svc st -> outcome_for w tbl st s c o ->
  stub_call sc op e = Ret (c_data c, c_md c) -> op < 2^32 -> nth_error (tbl (other s) RR) (N.to_nat op) = Some (Some h) ->
  callable sc e -> NoDup (map fst (sv_schema (svc h))) -> readable sc e (sv_schema (svc h)) -> returns (svc h) k ->
  exists x, outcome_of (sv_body (svc h) (c_sid c) (seen sc e (svc h))) = Some x /\ subscribe zero_value (stub_reply f64to32 pt text k [o]) closers = [x].
Proof.
  intros st s c o sc op e h k R O Sc L Hn C ND Rd Rt. unfold stub_call in Sc. destruct (codec_encode sc e) as [data| |] eqn:E; cbn [bind] in Sc; try discriminate Sc.
  assert (Q1 : data = c_data c) by congruence. assert (Q2 : c_md c = stub_metadata op) by congruence. subst data. clear Sc.
  assert (Nm := proj2 (stub_names (tbl (other s)) op h L) Hn). rewrite <- Q2 in Nm.
  destruct O as [(r & Hr & (Rs & Rh & Rd0 & _) & Ro)|[No _]]; [|contradiction (No h)].
  assert (Qh : r_handler r = h) by (destruct Nm as [_ X]; destruct Rh as [_ Y]; congruence).
  assert (X := proj2 (stub_runs st R) _ r Hr o Ro). rewrite Qh, Rs, Rd0 in X. unfold wrapper_answers in X. rewrite (wrapper_calls f64to32 pt text sc e (svc h) (c_sid c) (c_data c) C ND Rd E) in X.
  exact (sees_wrapped f64to32 pt text k (svc h) _ o Rt (ex_intro _ _ (ex_intro _ _ eq_refl)) X).
Qed.
End Runs.
