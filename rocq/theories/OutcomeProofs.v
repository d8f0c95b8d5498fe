(** Proofs about the outcomes of monos and about Block. *)
From Coq Require Import List Arith Bool Permutation Lia.
From Verif Require Import MonoModel MonoSpec MonoProofs FluxModel FluxSpec FluxProofs OutcomeModel OutcomeSpec.
Import ListNotations.

Section Mono.
Context {V E : Type} (zero : V).

Lemma closed_calls : forall {O} (sub : subscribe_cfg V E O) s l, closed s = true -> sink_calls sub s l = (s, []).
Proof.
  intros O sub s l C. induction l as [|c l IH]; [reflexivity|]. cbn [sink_calls]. unfold sink_step. rewrite C, IH. reflexivity.
Qed.

Lemma subscribe_proof : forall {O} (m : mono_expr V E) (sub : subscribe_cfg V E O),
  subscribe zero m sub =
  match outcome_of m with Some (inl v) => call (on_success sub) v | Some (inr e) => call (on_error sub) e | None => [] end ++
  match ended_with m with Some s => call (finally sub) s | None => [] end.
Proof.
  intros O m. induction m as [v|e|prev src|m IH tx]; intro sub.
  - symmetry. apply app_nil_r.
  - symmetry. apply app_nil_r.
  - destruct src as [|c src]; [reflexivity|]. cbn [subscribe sink_calls].
    destruct c as [v|e|]; unfold sink_step; cbn [new_subscriber closed outcome_of ended_with]; rewrite closed_calls by reflexivity; cbn [snd];
      apply app_nil_r.
  - cbn [subscribe outcome_of ended_with]. rewrite IH. cbn [on_success on_error finally call]. f_equal.
    destruct (outcome_of m) as [[v|e]|]; [destruct (tx v)|..]; reflexivity.
Qed.

Lemma ended_subscriber : forall {O} (sub : subscribe_cfg V E O) l,
  fst (sink_calls sub (new_subscriber zero) l) =
  match l with
  | [] => new_subscriber zero
  | KSuccess v :: _ => mkSubscriber true v None SigComplete
  | KError e :: _ => mkSubscriber true zero (Some e) SigError
  | KCancel :: _ => mkSubscriber true zero None SigCancel
  end.
Proof.
  intros O sub [|c l]; [reflexivity|]. cbn [sink_calls]. destruct c; unfold sink_step; cbn [new_subscriber closed]; rewrite closed_calls by reflexivity; reflexivity.
Qed.

Lemma await_proof : forall m : mono_expr V E, await zero (subscribe zero m closers) =
  match outcome_of m with Some o => BReturn (fst (results zero o)) (snd (results zero o)) | None => BHang end.
Proof.
  intro m. rewrite subscribe_proof. cbn [closers on_success on_error finally call].
  destruct (outcome_of m) as [[v|e]|], (ended_with m) as [[]|]; reflexivity.
Qed.

Lemma block_fresh_proof : forall m : mono_expr V E, fresh m = true ->
  block zero m = match outcome_of m with Some o => BReturn (fst (results zero o)) (snd (results zero o)) | None => BHang end.
Proof.
  intros m F. destruct m as [v|e|[prev|] src|m tx]; try reflexivity; [discriminate F|..]; cbn [block subscriber_of option_map]; apply await_proof.
Qed.

Lemma outcome_settled : forall m : mono_expr V E, outcome_of (settled m) = outcome_of m.
Proof. induction m as [v|e|prev src|m IH tx]; try reflexivity. cbn [settled outcome_of]. rewrite IH. reflexivity. Qed.

Lemma block_settled_proof : forall m : mono_expr V E,
  block zero (settled m) =
  match outcome_of m with
  | Some o => BReturn (fst (results zero o)) (snd (results zero o))
  | None => match m with Created _ (KCancel :: _) => BReturn zero None | _ => BHang end
  end.
Proof.
  intro m. destruct m as [v|e|prev src|m tx]; try reflexivity.
  - cbn [settled block subscriber_of option_map]. rewrite ended_subscriber. destruct src as [|[v|e|] src]; reflexivity.
  - change (settled (Map m tx)) with (Map (settled m) tx). unfold block. rewrite await_proof.
    change (Map (settled m) tx) with (settled (Map m tx)). rewrite outcome_settled. destruct (outcome_of (Map m tx)); reflexivity.
Qed.

Lemma get_settled_proof : forall m : mono_expr V E,
  get zero (settled m) =
  match outcome_of m with
  | Some o => Some (results zero o)
  | None => if cancelled m then Some (results zero (transforms m zero)) else None
  end.
Proof.
  induction m as [v|e|prev src|m IH tx]; try reflexivity.
  - cbn [settled get subscriber_of option_map]. rewrite ended_subscriber. destruct src as [|[v|e|] src]; reflexivity.
  - cbn [settled get outcome_of transforms]. rewrite IH. change (cancelled (Map m tx)) with (cancelled m).
    destruct (outcome_of m) as [[v|e]|]; cbn [results].
    + destruct (tx v); reflexivity.
    + reflexivity.
    + destruct (cancelled m); [|reflexivity]. destruct (transforms m zero) as [w|e]; cbn [results]; [|reflexivity]. destruct (tx w); reflexivity.
Qed.

Lemma notify_settled_proof : forall (m : mono_expr V E) s, ended_with m = Some s -> notify zero (settled m) = Some s.
Proof.
  induction m as [v|e|prev src|m IH tx]; intros s H; try discriminate H.
  - cbn [settled notify subscriber_of option_map]. rewrite ended_subscriber. destruct src as [|[v|e|] src]; cbn in H |- *; [discriminate H|exact H..].
  - apply IH. exact H.
Qed.
Lemma cancelled_outcome : forall m : mono_expr V E, cancelled m = true -> outcome_of m = None.
Proof.
  unfold cancelled. induction m as [v|e|prev src|m IH tx]; intro H; try discriminate H.
  - destruct src as [|[v|e|] src]; try discriminate H; reflexivity.
  - cbn [outcome_of]. rewrite (IH H). reflexivity.
Qed.
End Mono.

(** * What a subscription of the machine sees *)
Section Link.
Context {T E : Type} (zero : T).
(** The calls on subscription [i], and callbacks that record what they are given. *)
Definition sink_of (i : nat) (c : mcall T E) : list (sink_call T E) :=
  match c with
  | CSuccess j v => if Nat.eqb i j then [KSuccess v] else []
  | CError j e => if Nat.eqb i j then [KError e] else []
  | CCancel j => if Nat.eqb i j then [KCancel] else []
  | _ => []
  end.
Definition calls_on (i : nat) (tr : list (mevent T E)) : list (sink_call T E) := flat_map (sink_of i) (calls tr).
Definition recording (i : nat) (g : mcfg) : subscribe_cfg T E (mevent T E) :=
  mkSubscribe _ (if c_success g then Some (fun v => [EvSuccess i v]) else None)
                (if c_error g then Some (fun e => [EvError i e]) else None)
                (if c_finally g then Some (fun s => [EvFinally i s]) else None).

Lemma winner_call : forall i l,
  match find (ends i) l with
  | Some c => exists k rest, sink_of i c = [k] /\ flat_map (sink_of i) l = k :: rest
  | None => flat_map (sink_of i) l = []
  end.
Proof.
  intros i l. induction l as [|c l IH]; [reflexivity|]. cbn [find flat_map].
  destruct c as [g| | |j v|j e|j]; cbn [ends sink_of app]; try exact IH; destruct (Nat.eqb i j) eqn:Eq; try exact IH;
    cbn [sink_of]; rewrite Eq; eexists; eexists; split; reflexivity.
Qed.

Theorem link_proof : forall (st : mst T E) tr i g, mreach st [[User]] tr -> nth_error (cfgs tr) i = Some g ->
  seen i tr = subscribe zero (Created None (calls_on i tr)) (recording i g).
Proof.
  intros st tr i g R G. assert (O := outcome_proof st _ tr i R). unfold winner in O. assert (W := winner_call i (calls tr)).
  unfold calls_on. destruct (find (ends i) (calls tr)) as [c|] eqn:F.
  - destruct O as (g' & G' & _ & S). rewrite G in G'. injection G' as <-. rewrite (S eq_refl). destruct W as (k & rest & K & ->).
    rewrite subscribe_proof. apply find_some in F as [_ F].
    destruct c as [g'| | |j v|j e|j]; try discriminate F; cbn [ends sink_of] in *; rewrite F in K; injection K as <-;
      cbn [outcome_of ended_with recording on_success on_error finally]; unfold owed; destruct (c_success g), (c_error g), (c_finally g); reflexivity.
  - rewrite O, W. reflexivity.
Qed.
End Link.

(** * Block on a flux *)
Section FBlock.
Context {T E : Type}.
Implicit Types (tr : list (fevent T E)) (l : list (fcall T E)).
Definition errors tr : list E := flat_map (fun e => match e with VError e => [e] | _ => [] end) tr.
Lemma errors_app : forall a b, errors (a ++ b) = errors a ++ errors b.
Proof. intros. apply flat_map_app. Qed.

Lemma block_panics : forall tr, fold_left block_step tr (@BlockPanic E) = BlockPanic.
Proof. induction tr as [|e tr IH]; [reflexivity|]. cbn [fold_left]. destruct e; exact IH. Qed.
Lemma block_done : forall tr x, fold_left block_step tr (BlockReturn x) = match finals tr with [] => BlockReturn x | _ => BlockPanic end.
Proof.
  induction tr as [|e tr IH]; intro x; [reflexivity|]. cbn [fold_left]. destruct e; cbn [block_step]; try apply IH. apply block_panics.
Qed.
Lemma block_waits : forall tr x, finals tr = [] -> fold_left block_step tr (BlockWait x) = BlockWait (last (map Some (errors tr)) x).
Proof.
  induction tr as [|e tr IH]; intros x F; [reflexivity|]. cbn [fold_left].
  destruct e as [c|v| |e|s| |n| |k s]; try (apply IH; exact F); [|discriminate F].
  cbn [block_step]. rewrite (IH (Some e) F). f_equal. change (errors (VError e :: tr)) with (e :: errors tr). cbn [map].
  generalize (map (@Some E) (errors tr)). intros [|y q]; [reflexivity|]. revert y. induction q as [|z q IHq]; intro y; [reflexivity|].
  change (last (z :: q) (Some e) = last (z :: q) x). apply IHq.
Qed.

Lemma first_final : forall tr s f, finals tr = s :: f -> exists a b, tr = a ++ VFinally s :: b /\ finals a = [] /\ finals b = f.
Proof.
  induction tr as [|e tr IH]; intros s f F; [discriminate F|].
  destruct e as [c|v| |e|s'| |n| |k s']; try (destruct (IH s f F) as (a & b & -> & A & B); eexists (_ :: a), b; repeat split; [exact A|exact B]).
  cbn in F. injection F as -> F. exists [], tr. auto.
Qed.

(** The verdict from the number of finals and the errors, of which there is at most one if Finally runs once. *)
Lemma block_verdict : forall tr,
  (finals tr = [] -> errors tr = []) ->
  (length (finals tr) = 1 -> length (errors tr) <= 1) ->
  (length (finals tr) = 1 -> forall a s b, tr = a ++ VFinally s :: b -> errors tr <> [] -> errors a <> []) ->
  flux_block tr = match length (finals tr) with
                  | 0 => BlockWait None
                  | 1 => BlockReturn (match errors tr with e :: _ => Some e | [] => None end)
                  | _ => BlockPanic
                  end.
Proof.
  intros tr H0 H1 H2. unfold flux_block. destruct (finals tr) as [|s f] eqn:F.
  - cbn [length]. rewrite block_waits by exact F. rewrite (H0 eq_refl). reflexivity.
  - destruct (first_final tr s f F) as (a & b & Et & A & B). subst tr. rewrite fold_left_app. rewrite block_waits by exact A. cbn [fold_left block_step].
    rewrite block_done, B. destruct f as [|s' f]; [|reflexivity]. cbn [length] in *. f_equal.
    specialize (H1 eq_refl). specialize (H2 eq_refl a s b eq_refl). rewrite errors_app in *.
    change (errors (VFinally s :: b)) with (errors b) in *. destruct (errors a) as [|e q].
    + destruct (errors b) as [|e q]; [reflexivity|]. exfalso. apply H2; [discriminate|reflexivity].
    + rewrite app_length in H1. cbn [length] in H1. destruct q; [reflexivity|cbn in H1; lia].
Qed.

Lemma errors_delivered : forall tr, errors tr = errors (delivered tr).
Proof. induction tr as [|e tr IH]; [reflexivity|]. destruct e; cbn [delivered filter is_delivery]; try exact IH. change (e :: errors tr = e :: errors (delivered tr)). rewrite IH. reflexivity. Qed.
Lemma upto_closer : forall l, match closer l with Some c => exists q, upto l = q ++ [c] /\ closer q = None | None => closer (upto l) = None end.
Proof.
  unfold closer. induction l as [|c l IH]; [reflexivity|]. cbn [find upto]. destruct (closes c) eqn:C.
  - exists []. auto.
  - destruct (find closes l) as [d|].
    + destruct IH as (q & -> & Q). exists (c :: q). split; [reflexivity|]. cbn [find]. rewrite C. exact Q.
    + cbn [find]. rewrite C. exact IH.
Qed.
Lemma open_errors : forall g q, closer q = None -> errors (flat_map (delivers g) q) = [].
Proof.
  intros g q. unfold closer. induction q as [|c q IH]; [reflexivity|]. cbn [find]. destruct (closes c) eqn:C; [discriminate|].
  intro H. cbn [flat_map]. rewrite errors_app, (IH H). destruct c; try discriminate C; try reflexivity. cbn. destruct (k_next g); reflexivity.
Qed.
Lemma expected_errors : forall g l, k_error g = true -> errors (expected g l) = match ending_error l with Some e => [e] | None => [] end.
Proof.
  intros g l K. unfold expected, ending_error. assert (U := upto_closer l). destruct (closer l) as [c|] eqn:C.
  - destruct U as (q & -> & Q). rewrite flat_map_app, errors_app, (open_errors g q Q). apply find_some in C as [_ C].
    destruct c; try discriminate C; cbn; rewrite ?K; try reflexivity. destruct (k_complete g); reflexivity.
  - apply open_errors. exact U.
Qed.

Lemma in_split_final : forall {A} (a tr evs b : list A) x, tr ++ evs = a ++ x :: b ->
  (exists b', tr = a ++ x :: b') \/ (exists a', evs = a' ++ x :: b /\ a = tr ++ a').
Proof.
  intros A a. induction a as [|y a IH]; intros tr evs b x X.
  - destruct tr as [|t tr]; [right; exists []; auto|]. injection X as -> _. left. exists tr. reflexivity.
  - destruct tr as [|t tr]; [right; exists (y :: a); auto|]. injection X as -> X. destruct (IH tr evs b x X) as [(b' & ->)|(a' & Y & ->)].
    + left. exists b'. reflexivity.
    + right. exists a'. auto.
Qed.

Ltac ev S Y := apply (f_equal (fun o => match o with Some (_, _, _, e) => e | None => [] end)) in S; cbn iota in S; rewrite <- S in Y; clear S.
(** When Finally is told of an error, the error has been delivered. *)
Lemma error_first : forall g st stack tr, k_error g = true -> freach true g st [stack] tr ->
  forall a b, tr = a ++ VFinally SigError :: b -> errors a <> [].
Proof.
  intros g st stack tr K H. remember [stack] as ths eqn:Et. revert stack Et.
  induction H as [n|st l u stk r tr c H IH U|st l u stk r tr H IH U N|st l it stk r tr st' its new evs H IH S]; intros stack Et a b X.
  - destruct a; discriminate X.
  - apply one_thread in Et as (-> & -> & <-). eapply IH; [reflexivity|exact X].
  - apply one_thread in Et as (-> & -> & <-). eapply IH; [reflexivity|exact X].
  - apply one_thread in Et as (-> & Z & <-). apply app_eq_nil in Z as [-> ->]. specialize (IH _ eq_refl).
    destruct (in_split_final a tr evs b _ X) as [(b' & Y)|(a' & Y1 & Y2)].
    + eapply IH. exact Y.
    + assert (I := freach_inv g st (it :: stk) tr H). destruct I as [D Q C Sb F M]. cbn [tl] in Q.
      assert (It : it = FEmit true (VFinally SigError) /\ a' = []).
      { clear - S Y1 M. destruct it as [|n|c|c|[] e| | |n|n|n|s|s]; cbn [fstep] in S; try discriminate S.
        - destruct c; repeat match type of S with context [if ?x then _ else _] => destruct x end; try discriminate S; ev S Y1;
            destruct a' as [|? [|? ?]]; discriminate Y1.
        - destruct c; try discriminate S; ev S Y1; destruct a'; discriminate Y1.
        - destruct e; ev S Y1; destruct a' as [|? [|? ?]]; try discriminate Y1. injection Y1 as -> _. auto.
        - ev S Y1. destruct a'; discriminate Y1.
        - ev S Y1. destruct a'; discriminate Y1.
        - ev S Y1. destruct a'; discriminate Y1.
        - ev S Y1. destruct a'; discriminate Y1.
        - ev S Y1. destruct a'; discriminate Y1.
        - destruct (f_req st); [|discriminate S]. ev S Y1. destruct a'; discriminate Y1.
        - ev S Y1. destruct a'; discriminate Y1.
        - ev S Y1. destruct a'; discriminate Y1. }
      destruct It as [-> ->]. rewrite app_nil_r in Y2. subst a.
      assert (Dl : delivered tr = expected g (fcalls tr)).
      { rewrite <- D. change (pd g (FEmit true (VFinally SigError) :: stk)) with (pd g stk). rewrite (quiet_pd g stk Q). symmetry. apply app_nil_r. }
      rewrite errors_delivered, Dl, (expected_errors g _ K).
      assert (Hin : In SigError (expected_finals g (fcalls tr))).
      { eapply Permutation_in; [exact F|]. apply in_or_app. right. left. reflexivity. }
      unfold expected_finals in Hin. destruct (k_finally g); [|contradiction]. apply in_app_or in Hin as [Hin|Hin].
      * unfold ending_error. destruct (closer (fcalls tr)) as [[]|]; try contradiction; [destruct Hin as [Hin|[]]; discriminate Hin|discriminate].
      * apply in_flat_map in Hin as (c & _ & Hin). destruct c; try contradiction. destruct Hin as [Hin|[]]. discriminate Hin.
Qed.
End FBlock.

Section FVerdict.
Context {T E : Type}.
Implicit Types (tr : list (fevent T E)) (l : list (fcall T E)).
Lemma finals_count : forall g l, k_finally g = true -> length (expected_finals g l) = endings l + cancels l.
Proof.
  intros g l K. unfold expected_finals, endings. rewrite K, app_length, cancel_signals. f_equal. destruct (closer l) as [[]|]; reflexivity.
Qed.
Lemma ending_count : forall l e, ending_error l = Some e -> endings l = 1.
Proof. intros l e. unfold ending_error, endings. destruct (closer l) as [[]|]; try discriminate. reflexivity. Qed.
Lemma only_final : forall g l s, k_finally g = true -> Permutation [s] (expected_finals g l) -> ending_error l <> None -> s = SigError.
Proof.
  intros g l s K P N. destruct (ending_error l) as [e|] eqn:X; [|contradiction]. assert (C := ending_count l e X).
  assert (L := Permutation_length P). rewrite (finals_count g l K) in L. cbn [length] in L.
  assert (Y : In SigError (expected_finals g l)).
  { unfold expected_finals, ending_error in *. rewrite K. destruct (closer l) as [[]|]; try discriminate X. left. reflexivity. }
  apply Permutation_in with (l' := [s]) in Y; [|symmetry; exact P]. destruct Y as [Y|[]]. exact Y.
Qed.
Lemma final_at : forall tr a s b, tr = a ++ VFinally s :: b -> length (finals tr) = 1 -> finals tr = [s].
Proof.
  intros tr a s b Et L. rewrite Et in *. rewrite finals_app in *. change (finals (VFinally s :: b)) with (s :: finals b) in *.
  rewrite app_length in L. cbn [length] in L. destruct (finals a); [|cbn in L; lia]. destruct (finals b); [reflexivity|cbn in L; lia].
Qed.

Theorem flux_block_proof : forall g st tr, freach true (block_cfg g) st [[FUser]] tr ->
  flux_block tr = match endings (fcalls tr) + cancels (fcalls tr) with
                  | 0 => BlockWait None
                  | 1 => BlockReturn (ending_error (fcalls tr))
                  | _ => BlockPanic
                  end.
Proof.
  intros g st tr R. assert (P := finals_proof (block_cfg g) st tr R). assert (L := Permutation_length P). rewrite (finals_count (block_cfg g) (fcalls tr) eq_refl) in L.
  destruct (deliveries_proof (block_cfg g) st _ tr R) as [_ D]. specialize (D eq_refl).
  assert (X : errors tr = match ending_error (fcalls tr) with Some e => [e] | None => [] end) by (rewrite errors_delivered, D; apply expected_errors; reflexivity).
  rewrite block_verdict.
  - rewrite L, X. destruct (ending_error (fcalls tr)); reflexivity.
  - intro F. rewrite F in L. cbn [length] in L. rewrite X. destruct (ending_error (fcalls tr)) as [e|] eqn:Q; [|reflexivity].
    apply ending_count in Q. lia.
  - intros _. rewrite X. destruct (ending_error (fcalls tr)); cbn; lia.
  - intros L1 a s b Et N. assert (Fs := final_at tr a s b Et L1). rewrite Fs in P.
    assert (Se : s = SigError). { apply (only_final (block_cfg g) (fcalls tr) s eq_refl P). intro Z. rewrite X, Z in N. apply N. reflexivity. }
    subst s. apply (error_first (block_cfg g) st _ tr eq_refl R a b Et).
Qed.
End FVerdict.

Section MVerdict.
Context {T E D : Type} (tx : T -> D + E) (g : fcfg) (kr knr : bool).
Implicit Types (tr : list (fevent T E)) (l : list (fcall T E)).
Let g' := block_cfg g.

(** The errors a mapped subscriber is given. *)
Lemma map_errors_open : forall q, closer q = None -> errors (flat_map (map_delivers tx g') q) =
  flat_map (fun c => match c with FNext v => match tx v with inr e => [e] | inl _ => [] end | _ => [] end) (filter (fails tx) q).
Proof.
  unfold closer. induction q as [|c q IH]; [reflexivity|]. cbn [find]. destruct (closes c) eqn:C; [discriminate|]. intro H.
  cbn [flat_map filter]. rewrite errors_app, (IH H). destruct c as [| |v| |e|r k|n| |]; try discriminate C; try reflexivity.
  cbn [map_delivers fails]. destruct (tx v) as [d|e] eqn:X; [destruct (k_next g'); reflexivity|].
  cbn [flat_map]. rewrite X. reflexivity.
Qed.
Lemma map_errors : forall l, errors (map_expected tx g' l) =
  flat_map (fun c => match c with FNext v => match tx v with inr e => [e] | inl _ => [] end | _ => [] end) (failing tx l) ++
  match ending_error l with Some e => [e] | None => [] end.
Proof.
  intro l. unfold map_expected, failing, ending_error. assert (U := upto_closer l). destruct (closer l) as [c|] eqn:C.
  - destruct U as (q & -> & Q). rewrite flat_map_app, errors_app, (map_errors_open q Q), filter_app, flat_map_app, <- app_assoc. f_equal.
    apply find_some in C as [_ C]. destruct c; try discriminate C; try reflexivity. cbn. destruct (k_complete g); reflexivity.
  - rewrite (map_errors_open _ U). symmetry. apply app_nil_r.
Qed.
Lemma failing_errors : forall l, length (flat_map (fun c => match c with FNext v => match tx v with inr e => [e] | inl _ => [] end | _ => [] end) (failing tx l)) = length (failing tx l).
Proof.
  intro l. unfold failing. induction (upto l) as [|c q IH]; [reflexivity|]. cbn [filter]. destruct c as [| |v| |e|r k|n| |]; try exact IH.
  cbn [fails]. destruct (tx v) eqn:X; [exact IH|]. cbn [flat_map]. rewrite X. cbn [app length]. rewrite IH. reflexivity.
Qed.

Lemma mapped_split : forall tr a s b, flat_map (fmap_event tx g') tr = a ++ VFinally s :: b ->
  exists p e q x y, tr = p ++ e :: q /\ fmap_event tx g' e = x ++ VFinally s :: y /\ a = flat_map (fmap_event tx g') p ++ x.
Proof.
  induction tr as [|e tr IH]; intros a s b H; [destruct a; discriminate H|]. cbn [flat_map] in H.
  destruct (in_split_final a _ _ b _ H) as [(y & Y)|(a' & Y & ->)].
  - exists [], e, tr, a, y. auto.
  - destruct (IH a' s b Y) as (p & e' & q & x & y & -> & Fe & ->). exists (e :: p), e', q, x, y. repeat split; [exact Fe|]. cbn [flat_map]. apply app_assoc.
Qed.

Theorem mapped_block_proof : forall st tr, freach true (source_cfg g' kr knr) st [[FUser]] tr ->
  flux_block (flat_map (fmap_event tx g') tr) =
  match length (failing tx (fcalls tr)) + (endings (fcalls tr) + cancels (fcalls tr)) with
  | 0 => BlockWait None
  | 1 => BlockReturn (match first_failure tx (fcalls tr) with Some e => Some e | None => ending_error (fcalls tr) end)
  | _ => BlockPanic
  end.
Proof.
  intros st tr R. set (tr' := flat_map (fmap_event tx g') tr).
  assert (P := mapped_finals_proof tx g' kr knr st tr R). fold tr' in P. change (k_finally g') with true in P. cbn iota in P.
  assert (L := Permutation_length P). rewrite app_length, repeat_length, (finals_count g' (fcalls tr) eq_refl) in L.
  destruct (mapped_deliveries_proof tx g' kr knr st _ tr R) as [_ Dl]. specialize (Dl eq_refl). fold tr' in Dl.
  assert (X : errors tr' = _) by (rewrite errors_delivered, Dl; apply map_errors). assert (FE := failing_errors (fcalls tr)).
  assert (EC := ending_count (fcalls tr)).
  rewrite block_verdict.
  - rewrite L. rewrite (Nat.add_comm (endings _ + cancels _)).
    assert (Y : match errors tr' with e :: _ => Some e | [] => None end = match first_failure tx (fcalls tr) with Some e => Some e | None => ending_error (fcalls tr) end).
    { rewrite X. unfold first_failure. destruct (failing tx (fcalls tr)) as [|c f] eqn:Ef; [cbn; destruct (ending_error (fcalls tr)); reflexivity|].
      assert (Fc : fails tx c = true). { assert (Hin : In c (failing tx (fcalls tr))) by (rewrite Ef; left; reflexivity). unfold failing in Hin. apply filter_In in Hin. apply Hin. }
      destruct c as [| |v| |e|r k|n| |]; try discriminate Fc. cbn [fails] in Fc. cbn [flat_map]. destruct (tx v); [discriminate Fc|reflexivity]. }
    rewrite Y. reflexivity.
  - intro F. rewrite F in L. cbn [length] in L. rewrite X. destruct (failing tx (fcalls tr)); [|cbn in L; lia]. cbn [flat_map app].
    destruct (ending_error (fcalls tr)) as [e|]; [|reflexivity]. specialize (EC e eq_refl). lia.
  - intro L1. rewrite X, app_length, FE. destruct (ending_error (fcalls tr)) as [e|]; [specialize (EC e eq_refl)|]; cbn [length]; lia.
  - intros L1 a s b Et N. assert (Fs := final_at tr' a s b Et L1). rewrite Fs in P.
    destruct (mapped_split tr a s b Et) as (p & e & q & x & y & Etr & Fe & ->). rewrite errors_app. intro Z. apply app_eq_nil in Z as [Z1 Z2].
    destruct e as [c|v| |e|s'| |n| |k s']; cbn [fmap_event] in Fe; try (destruct x; discriminate Fe).
    + destruct (tx v) as [d|e]; [destruct (k_next g'); destruct x as [|? [|? ?]]; discriminate Fe|]. cbn in Fe.
      destruct x as [|x0 x]; [discriminate Fe|]. injection Fe as <- Fe. discriminate Z2.
    + destruct (k_complete g'); destruct x as [|? [|? ?]]; discriminate Fe.
    + cbn in Fe. destruct x as [|? [|? ?]]; discriminate Fe.
    + cbn in Fe. destruct x as [|? [|? ?]]; try discriminate Fe. injection Fe as -> _.
      (* the source's own Finally: no transform failed *)
      assert (Ps := finals_proof (source_cfg g' kr knr) st tr R). assert (Ls := Permutation_length Ps). rewrite (finals_count (source_cfg g' kr knr) (fcalls tr) eq_refl) in Ls.
      assert (H1 : length (finals tr) >= 1). { rewrite Etr, finals_app, app_length. cbn. lia. }
      rewrite Fs in L. cbn [length] in L. destruct (failing tx (fcalls tr)) as [|c f] eqn:Ef; [|cbn in L; lia]. cbn [length repeat] in *. rewrite app_nil_r in P.
      assert (Se : s = SigError). { apply (only_final g' (fcalls tr) s eq_refl P). intro Q. rewrite X, Q in N. apply N. reflexivity. }
      subst s. assert (Y := error_first (source_cfg g' kr knr) st _ tr eq_refl R p q Etr).
      apply Y. clear - Z1. induction p as [|e p IH]; [reflexivity|]. cbn [flat_map] in Z1. rewrite errors_app in Z1. apply app_eq_nil in Z1 as [Z0 Z1].
      specialize (IH Z1). destruct e; try exact IH. discriminate Z0.
Qed.
End MVerdict.
