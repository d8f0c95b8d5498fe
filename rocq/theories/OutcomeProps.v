(** C55: the outcome of a mono, and Block. *)
From Coq Require Import List Arith Bool.
From Verif Require Import MonoModel MonoSpec MonoProofs FluxModel FluxSpec FluxProofs OutcomeModel OutcomeSpec OutcomeProofs.
Import ListNotations.

(** ** Monos, however they are built from Just, Error, Create and Map *)

(** A mono with an outcome gives that outcome whichever way it is asked for: Subscribe runs exactly one of OnSuccess and
    OnError, once; Block returns it, before and after other subscriptions; Get returns it once it is there. *)
Theorem C55_outcome : forall {V E} (zero : V) (m : mono_expr V E) o, outcome_of m = Some o ->
  subscribe zero m closers = [o] /\
  (fresh m = true -> block zero m = BReturn (fst (results zero o)) (snd (results zero o))) /\
  block zero (settled m) = BReturn (fst (results zero o)) (snd (results zero o)) /\
  get zero (settled m) = Some (results zero o).
Proof.
  intros V E zero m o H. repeat split.
  - rewrite subscribe_proof, H. destruct o, (ended_with m) as [[]|]; reflexivity.
  - intro F. rewrite (block_fresh_proof zero m F), H. reflexivity.
  - rewrite block_settled_proof, H. reflexivity.
  - rewrite get_settled_proof, H. reflexivity.
Qed.
Print Assumptions C55_outcome.
(** A source that reports twice, mapped twice; the second transform fails on what the first makes of 3. *)
Definition ex_tx (n : nat) : nat + nat := if n <? 10 then inl (n * 2) else inr n.
Definition ex_mono (n : nat) : mono_expr nat nat := Map (Map (Created None [KSuccess n; KError 9; KCancel]) ex_tx) (fun n => if n =? 6 then inr 66 else inl (S n)).
Example C55_outcome_ex : outcome_of (ex_mono 4) = Some (inl 9) /\ outcome_of (ex_mono 3) = Some (inr 66) /\ outcome_of (ex_mono 11) = Some (inr 11) /\
  block 0 (ex_mono 3) = BReturn 0 (Some 66) /\ get 0 (settled (ex_mono 4)) = Some (9, None) /\ fresh (ex_mono 3) = true.
Proof. repeat split. Qed.

(** What a subscriber with any callbacks sees: the outcome, then Finally with the signal of the call that ended the
    created mono inside - which does not run if there is no such mono. *)
Theorem C55_subscribe : forall {V E O} (zero : V) (m : mono_expr V E) (sub : subscribe_cfg V E O),
  subscribe zero m sub =
  match outcome_of m with Some (inl v) => call (on_success sub) v | Some (inr e) => call (on_error sub) e | None => [] end ++
  match ended_with m with Some s => call (finally sub) s | None => [] end.
Proof. intros V E O zero m sub. apply subscribe_proof. Qed.
Print Assumptions C55_subscribe.
Theorem C55_finally_refuted : ~ forall (m : mono_expr nat nat) (sub : subscribe_cfg nat nat signal), outcome_of m <> None ->
  finally sub = Some (fun s => [s]) -> on_success sub = None -> on_error sub = None -> length (subscribe 0 m sub) = 1.
Proof. intro H. specialize (H (Just 1) (mkSubscribe _ None None (Some (fun s => [s])))). assert (X : 0 = 1) by (apply H; [discriminate|reflexivity..]). discriminate X. Qed.
Print Assumptions C55_finally_refuted.
(** The signal need not agree with the outcome: a failed transform of a value is an error that ends in SignalComplete. *)
Theorem C55_signal_refuted : ~ forall (m : mono_expr nat nat) e, outcome_of m = Some (inr e) -> ended_with m <> None ->
  ended_with m = Some SigError /\ notify 0 (settled m) = Some SigError.
Proof. intro H. destruct (H (ex_mono 3) 66 eq_refl) as [X _]; [discriminate|]. discriminate X. Qed.
Print Assumptions C55_signal_refuted.
Theorem C55_notify : forall {V E} (zero : V) (m : mono_expr V E) s, ended_with m = Some s -> notify zero (settled m) = Some s.
Proof. intros V E. exact notify_settled_proof. Qed.
Print Assumptions C55_notify.

(** Block waits for ever exactly on a mono without an outcome; its channel is never closed twice. *)
Theorem C55_block : forall {V E} (zero : V) (m : mono_expr V E),
  (fresh m = true -> (block zero m = BHang <-> outcome_of m = None) /\ block zero m <> BPanic) /\
  block zero (settled m) <> BPanic.
Proof.
  intros V E zero m. split.
  - intro F. rewrite (block_fresh_proof zero m F). destruct (outcome_of m); split; try split; discriminate || reflexivity.
  - rewrite block_settled_proof. destruct (outcome_of m); [discriminate|]. destruct m as [v|e|prev [|[]]|m tx]; discriminate.
Qed.
Print Assumptions C55_block.
Example C55_block_ex : block 0 (Created None [@KCancel nat nat; KSuccess 3]) = BHang /\ block 0 (Created None [KSuccess 3; @KSuccess nat nat 4]) = BReturn 3 None.
Proof. split; reflexivity. Qed.

(** After a subscription that was cancelled: Block on the mono itself returns the zero value and no error, Block on it
    mapped never returns, and Get returns the transformed zero value and no error unless a transform fails on it. *)
Theorem C55_cancelled : forall {V E} (zero : V) (m : mono_expr V E), cancelled m = true ->
  block zero (settled m) = match m with Map _ _ => BHang | _ => BReturn zero None end /\
  get zero (settled m) = Some (results zero (transforms m zero)).
Proof.
  intros V E zero m C. assert (O := cancelled_outcome m C). split.
  - rewrite block_settled_proof, O. destruct m as [v|e|prev [|[]]|m tx]; try discriminate C; reflexivity.
  - rewrite get_settled_proof, O, C. reflexivity.
Qed.
Print Assumptions C55_cancelled.
Theorem C55_cancelled_refuted : ~ forall m : mono_expr nat nat, cancelled m = true -> exists e, snd (match get 0 (settled m) with Some p => p | None => (0, Some 0) end) = Some e.
Proof. intro H. destruct (H (Map (Created None [KCancel]) (fun n => inl (S n))) eq_refl) as [e X]. discriminate X. Qed.
Print Assumptions C55_cancelled_refuted.

(** The list of calls stands for any use of a subscription: whatever calls are made, re-entrantly, on one thread, a
    subscription of the machine of [MonoModel] sees exactly what [subscribe] gives for the calls on it, in order. *)
Theorem C55_machine : forall {T E} (zero : T) (st : mst T E) tr i g, mreach st [[User]] tr -> nth_error (cfgs tr) i = Some g ->
  seen i tr = subscribe zero (Created None (calls_on i tr)) (recording i g).
Proof. intros T E. exact link_proof. Qed.
Print Assumptions C55_machine.
Example C55_machine_ex : exists (st : mst nat nat) tr g, mreach st [[User]] tr /\ nth_error (cfgs tr) 0 = Some g /\
  calls_on 0 tr = [KSuccess 7; KError 9] /\ seen 0 tr = [EvSuccess 0 7; EvFinally 0 SigComplete].
Proof.
  destruct (exec [MCall 0 (CSubscribe (mkCfg true true true)); MStep 0; MRet 0; MCall 0 (CSuccess 0 7); MStep 0; MStep 0; MStep 0;
                  MCall 0 (@CError nat nat 0 9); MStep 0; MRet 0; MStep 0; MStep 0; MRet 0; MStep 0] (mono_create, [[User]], [])) as [[[st ths] tr]|] eqn:X;
    [|vm_compute in X; discriminate].
  exists st, tr, (mkCfg true true true). assert (R : mreach st ths tr) by (eapply exec_sound; [apply (m_init 1)|exact X]).
  vm_compute in X. injection X as <- <- <-. repeat split; exact R || reflexivity.
Qed.

(** ** Fluxes *)

(** Once nothing is running, Block has returned if exactly one of the following has happened, and once: the source ended
    the subscription, or Cancel was called.  It returns the source's error if that ended the subscription and nil
    otherwise.  If none has happened it still waits, and if more has happened its channel was closed twice. *)
Theorem C55_flux_block : forall {T E} g st (tr : list (fevent T E)), freach true (block_cfg g) st [[FUser]] tr ->
  flux_block tr = match endings (fcalls tr) + cancels (fcalls tr) with
                  | 0 => BlockWait None
                  | 1 => BlockReturn (ending_error (fcalls tr))
                  | _ => BlockPanic
                  end.
Proof. intros T E. exact flux_block_proof. Qed.
Print Assumptions C55_flux_block.

(** The same for a mapped flux: every value the transform fails on counts as one more end, with its error. *)
Theorem C55_mapped_block : forall {T E D} (tx : T -> D + E) g kr knr st tr, freach true (source_cfg (block_cfg g) kr knr) st [[FUser]] tr ->
  flux_block (flat_map (fmap_event tx (block_cfg g)) tr) =
  match length (failing tx (fcalls tr)) + (endings (fcalls tr) + cancels (fcalls tr)) with
  | 0 => BlockWait None
  | 1 => BlockReturn (match first_failure tx (fcalls tr) with Some e => Some e | None => ending_error (fcalls tr) end)
  | _ => BlockPanic
  end.
Proof. intros T E D. exact (@mapped_block_proof T E D). Qed.
Print Assumptions C55_mapped_block.
Definition only_next : fcfg := mkF true false false false false false.
Definition ex_block (c : fcall nat nat) (rest : list (fmove nat nat)) : list (fmove nat nat) :=
  [NCall 0 FSubscribe; NStep 0; NRet 0; NStep 0; NStep 0; NCall 0 (FNext 1); NStep 0; NStep 0; NStep 0; NRet 0; NStep 0;
   NCall 0 c; NStep 0; NStep 0; NStep 0] ++ rest ++ [NStep 0; NStep 0; NRet 0; NStep 0].
Ltac run ms := let X := fresh in destruct (@fexec nat nat true (source_cfg (block_cfg only_next) false false) ms (flux_create, [[FUser]], [])) as [[[st ths] tr]|] eqn:X;
  [|vm_compute in X; discriminate X]; exists st, tr;
  assert (R : freach true (source_cfg (block_cfg only_next) false false) st ths tr) by (eapply fexec_sound; [apply (f_init true _ 1)|exact X]);
  vm_compute in X; injection X as <- <- <-.
(** The source sends 1 and fails with 5; Block returns 5. *)
Example C55_flux_block_ex : exists st (tr : list (fevent nat nat)), freach true (block_cfg only_next) st [[FUser]] tr /\
  fcalls tr = [FSubscribe; FNext 1; FError 5] /\ flux_block tr = BlockReturn (Some 5).
Proof. run (ex_block (FError 5) [NRet 0]). repeat split; exact R || reflexivity. Qed.
(** A transform fails on 1 and the source then ends normally: Block panics. *)
Theorem C55_mapped_block_refuted : exists st (tr : list (fevent nat nat)), freach true (source_cfg (block_cfg only_next) false false) st [[FUser]] tr /\
  fcalls tr = [FSubscribe; FNext 1; FComplete] /\ cancels (fcalls tr) = 0 /\
  flux_block (flat_map (fmap_event (fun n => if n =? 1 then @inr nat nat 99 else inl n) (block_cfg only_next)) tr) = BlockPanic.
Proof. run (ex_block FComplete []). repeat split; exact R || reflexivity. Qed.
Print Assumptions C55_mapped_block_refuted.

(** The method of a created flux first looks at the subscription already made.  If that was closed - by its source, a
    Cancel or a Close - it returns at once, with the error if the source failed; otherwise it subscribes again and waits. *)
Theorem C55_created_block : forall {T E} g st (tr : list (fevent T E)) rest, freach true g st [[FUser]] tr -> f_sub st = true ->
  created_block (Some (f_closed st, ending_error (fcalls tr))) rest =
  Some (match closer (fcalls tr) with
        | Some (FError e) => BlockReturn (Some e)
        | Some _ => BlockReturn None
        | None => rest
        end).
Proof.
  intros T E g st tr rest R _. assert (C := v_closed _ _ _ _ (freach_inv g st [FUser] tr R)). cbn iota in C. rewrite C. unfold ending_error.
  destruct (closer (fcalls tr)) as [[]|]; reflexivity.
Qed.
Print Assumptions C55_created_block.
Example C55_created_block_ex : exists st (tr : list (fevent nat nat)), freach true (block_cfg only_next) st [[FUser]] tr /\
  fcalls tr = [FSubscribe; FNext 1; FError 5] /\ f_sub st = true /\
  created_block (Some (f_closed st, ending_error (fcalls tr))) BlockPanic = Some (BlockReturn (Some 5)).
Proof. run (ex_block (FError 5) [NRet 0]). repeat split; exact R || reflexivity. Qed.

(** The method of a created flux reads its subscriber first: on a flux nobody has subscribed to it panics. *)
Theorem C55_created_block_refuted : ~ forall (E : Type) (sub : option (bool * option E)) rest, created_block sub rest <> None.
Proof. intro H. exact (H nat None BlockPanic eq_refl). Qed.
Print Assumptions C55_created_block_refuted.
