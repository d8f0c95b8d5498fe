(** C26, C27: monos and mono processors. *)
From Coq Require Import List Arith Bool Permutation.
From Verif Require Import MonoModel MonoSpec MonoProofs.
Import ListNotations.

(** ** C26 *)

(** One thread, any calls in any order, made from sources, callbacks or anywhere else: a subscription sees nothing
    before a call that ends it; afterwards it sees the callbacks of the first such call, in order and once, and nothing
    else whatever is called later; all of them once that call has returned. *)
Theorem C26_one_outcome : forall {T E} (st : mst T E) stack tr i, mreach st [stack] tr ->
  match winner i tr with
  | None => seen i tr = []
  | Some c => exists g, nth_error (cfgs tr) i = Some g /\ is_prefix (seen i tr) (owed i g c) /\
                        (stack = [User] -> seen i tr = owed i g c)
  end.
Proof. exact @outcome_proof. Qed.
Print Assumptions C26_one_outcome.
(** Error is called from inside OnSuccess, and Cancel afterwards. *)
Definition ex_moves : list (@move nat nat) :=
  [MCall 0 (CSubscribe (mkCfg true true true)); MStep 0; MRet 0; MCall 0 (CSuccess 0 7); MStep 0; MStep 0; MStep 0;
   MCall 0 (CError 0 9); MStep 0; MRet 0; MStep 0; MStep 0; MRet 0; MStep 0; MCall 0 (CCancel 0); MStep 0].
Example C26_ex : exists st tr, mreach st [[User]] tr /\ winner 0 tr = Some (CSuccess 0 7) /\
  calls tr = [CSubscribe (mkCfg true true true); CSuccess 0 7; CError 0 9; CCancel 0] /\
  seen 0 tr = [EvSuccess 0 7; EvFinally 0 SigComplete].
Proof.
  destruct (exec ex_moves (mono_create, [[User]], [])) as [[[st ths] tr]|] eqn:X; [|vm_compute in X; discriminate].
  exists st, tr. assert (R : mreach st ths tr) by (eapply exec_sound; [apply (m_init 1)|exact X]).
  vm_compute in X. injection X as <- <- <-. repeat split; exact R || reflexivity.
Qed.

(** Get returns what the first ending call of the last subscription was given, and panics before it. *)
Theorem C26_get : forall {T E} (st : mst T E) stack tr, mreach st [Do CGet :: stack] tr ->
  match winner (length (cfgs tr) - 1) tr with
  | Some c => mstep st (Do CGet) = Some (st, [], [EvCall CGet; got c])
  | None => mstep st (Do CGet) = None
  end.
Proof. exact @get_proof. Qed.
Print Assumptions C26_get.
Example C26_get_ex : exists st tr, mreach st [[Do CGet; User]] tr /\ winner (length (cfgs tr) - 1) tr = Some (CSuccess 0 7) /\
  mstep st (Do CGet) = Some (st, [], [EvCall CGet; EvGot (Some 7) (@None nat)]).
Proof.
  destruct (exec (ex_moves ++ [MCall 0 CGet]) (mono_create, [[User]], [])) as [[[st ths] tr]|] eqn:X; [|vm_compute in X; discriminate].
  exists st, tr. assert (R : mreach st ths tr) by (eapply exec_sound; [apply (m_init 1)|exact X]).
  vm_compute in X. injection X as <- <- <-. repeat split; exact R || reflexivity.
Qed.

(** Notify callbacks with one subscription: none runs before an ending call, none twice, all have run once that call has
    returned; each gets the signal of the call, except that one registered after the call may get SignalComplete. *)
Theorem C26_notify : forall {T E} (st : mst T E) stack tr, mreach st [stack] tr -> length (cfgs tr) <= 1 ->
  match winner 0 tr with
  | None => notified tr = []
  | Some c => NoDup (notified tr) /\ (stack = [User] -> Permutation (notified tr) (seq 0 (registered tr))) /\
              (forall k s, In (EvNotify k s) tr -> s = sig_of c \/ (s = SigComplete /\ early tr <= k < registered tr))
  end.
Proof. exact @notify_proof. Qed.
Print Assumptions C26_notify.

(** Once nothing is running any more a new registration runs at once, with the right signal. *)
Theorem C26_notify_after : forall {T E} (st : mst T E) tr c, mreach st [[User]] tr -> length (cfgs tr) <= 1 -> winner 0 tr = Some c ->
  exists st', mstep st (Do CNotify) = Some (st', [Emit true (EvNotify (registered tr) (sig_of c))], [EvCall CNotify]).
Proof. exact @notify_after_proof. Qed.
Print Assumptions C26_notify_after.

(** The exception is real: Notify called from OnError gets SignalComplete. *)
Definition ex_notify : list (@move nat nat) :=
  [MCall 0 (CSubscribe (mkCfg true true true)); MStep 0; MRet 0; MCall 0 CNotify; MStep 0; MCall 0 (CError 0 9); MStep 0; MStep 0; MStep 0;
   MCall 0 CNotify; MStep 0; MStep 0; MRet 0; MRet 0; MStep 0; MStep 0; MRet 0; MStep 0; MStep 0; MRet 0].
Theorem C26_notify_signal_refuted : exists (st : mst nat nat) tr, mreach st [[User]] tr /\ length (cfgs tr) = 1 /\
  winner 0 tr = Some (CError 0 9) /\ In (EvNotify 1 SigComplete) tr /\ In (EvNotify 0 SigError) tr.
Proof.
  destruct (exec ex_notify (mono_create, [[User]], [])) as [[[st ths] tr]|] eqn:X; [|vm_compute in X; discriminate].
  exists st, tr. assert (R : mreach st ths tr) by (eapply exec_sound; [apply (m_init 1)|exact X]).
  vm_compute in X. injection X as <- <- <-. split; [exact R|]. split; [reflexivity|]. split; [reflexivity|]. split; cbn; auto 10.
Qed.
Print Assumptions C26_notify_signal_refuted.

(** With two subscriptions a Notify callback runs twice. *)
Definition ex_twice : list (@move nat nat) :=
  [MCall 0 (CSubscribe (mkCfg false false false)); MStep 0; MRet 0; MCall 0 (CSubscribe (mkCfg false false false)); MStep 0; MRet 0;
   MCall 0 CNotify; MStep 0; MCall 0 (CSuccess 0 1); MStep 0; MStep 0; MStep 0; MStep 0; MStep 0; MStep 0; MStep 0; MRet 0;
   MCall 0 (CSuccess 1 1); MStep 0; MStep 0; MStep 0; MStep 0; MStep 0; MStep 0; MStep 0; MRet 0].
Theorem C26_notify_twice_refuted : exists (st : mst nat nat) tr, mreach st [[User]] tr /\ registered tr = 1 /\ notified tr = [0; 0].
Proof.
  destruct (exec ex_twice (mono_create, [[User]], [])) as [[[st ths] tr]|] eqn:X; [|vm_compute in X; discriminate].
  exists st, tr. assert (R : mreach st ths tr) by (eapply exec_sound; [apply (m_init 1)|exact X]).
  vm_compute in X. injection X as <- <- <-. repeat split; exact R || reflexivity.
Qed.
Print Assumptions C26_notify_twice_refuted.

(** With two threads a subscription can see both a value and an error: nothing guards [closed]. *)
Definition ex_race : list (@move nat nat) :=
  [MCall 0 (CSubscribe (mkCfg true true true)); MStep 0; MRet 0; MCall 0 (CSuccess 0 1); MCall 1 (CError 0 2);
   MStep 0; MStep 1; MStep 0; MStep 1; MStep 0; MStep 1].
Theorem C26_two_threads_refuted : exists (st : mst nat nat) ths tr, mreach st ths tr /\ length ths = 2 /\
  seen 0 tr = [EvSuccess 0 1; EvError 0 2].
Proof.
  destruct (exec ex_race (mono_create, [[User]; [User]], [])) as [[[st ths] tr]|] eqn:X; [|vm_compute in X; discriminate].
  exists st, ths, tr. assert (R : mreach st ths tr) by (eapply exec_sound; [apply (m_init 2)|exact X]).
  vm_compute in X. injection X as <- <- <-. repeat split; exact R || reflexivity.
Qed.
Print Assumptions C26_two_threads_refuted.

(** A mapped mono: exactly one outcome - the transformed value, the transform's error or the source's error. *)
Theorem C26_mapped : forall {T E D} (tx : T -> D + E) st stack tr i c g,
  mreach st [stack] tr -> winner i tr = Some c -> nth_error (cfgs tr) i = Some (mkCfg true (c_error g) (c_finally g)) ->
  is_prefix (flat_map (map_event tx g) (seen i tr)) (map_owed tx i g c) /\
  (stack = [User] -> flat_map (map_event tx g) (seen i tr) = map_owed tx i g c).
Proof. intros T E D. exact (@mapped_proof T E D). Qed.
Print Assumptions C26_mapped.

(** Its Finally says SignalComplete although the subscriber was given an error, when the transform fails. *)
Theorem C26_mapped_signal_refuted : exists (st : mst nat nat) tr, mreach st [[User]] tr /\
  flat_map (map_event (fun _ => @inr nat nat 5) (mkCfg true true true)) (seen 0 tr) = [inl (0, inr 5); inr (0, SigComplete)].
Proof.
  destruct (exec ex_moves (mono_create, [[User]], [])) as [[[st ths] tr]|] eqn:X; [|vm_compute in X; discriminate].
  exists st, tr. assert (R : mreach st ths tr) by (eapply exec_sound; [apply (m_init 1)|exact X]).
  vm_compute in X. injection X as <- <- <-. repeat split; exact R || reflexivity.
Qed.
Print Assumptions C26_mapped_signal_refuted.

(** ** C27 *)

(** What every subscriber of a processor has received, for every history: if an outcome was produced before the first
    subscription, exactly the last value - or else the last error - produced before it, once; otherwise the first
    outcome produced between its subscription and the next. *)
Theorem C27_processor : forall {T E} (h : list (pcall T E)), map snd (p_subs (prun h)) = replayed h.
Proof. exact @processor_proof. Qed.
Print Assumptions C27_processor.
Example C27_ex : map snd (p_subs (prun [@PError nat nat 1; PSuccess 2; PSubscribe; PSuccess 3; PSubscribe])) = [[inl 2]; [inl 2]]
  /\ map snd (p_subs (prun [@PSubscribe nat nat; PError 1; PSuccess 2])) = [[inr 1]].
Proof. split; reflexivity. Qed.

(** So a subscriber that comes after an outcome produced for an earlier subscriber receives nothing. *)
Theorem C27_late_subscriber_refuted : exists h : list (pcall nat nat),
  h = [PSubscribe; PSuccess 1; PSubscribe] /\ map snd (p_subs (prun h)) = [[inl 1]; []].
Proof. exists [PSubscribe; PSuccess 1; PSubscribe]. split; reflexivity. Qed.
Print Assumptions C27_late_subscriber_refuted.
