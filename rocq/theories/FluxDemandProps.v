(** Property C58: what a subscriber asks for is what its source is asked for. *)
From Coq Require Import List Arith ZArith Lia Bool.
From Verif Require Import MonoModel FluxModel FluxSpec FluxProofs FluxDemandSpec FluxDemandProofs.
Import ListNotations.
Open Scope Z_scope.

(** C58. At every moment of every execution, on the host and in a guest, the source has been asked for at most what the
    subscription's users have requested ([demand]: the sum of the Request calls, and RequestMax if the subscription asks by
    itself) - for a source that hands over its functions once and sends items only once asked. *)
Theorem C58_at_most : forall {T E} sync g st ths (tr : list (fevent T E)), freach sync g st ths tr -> answers tr -> sensible g tr ->
  asked tr <= demand g tr.
Proof. intros T E sync g. exact (at_most sync g). Qed.
Print Assumptions C58_at_most.

(** Once the library has nothing left to do, it has been asked for exactly that if it came with its functions before the
    subscription was closed - whether the requests were made before or after that - and for nothing if it never came. *)
Theorem C58_demand : forall {T E} sync g st ths (tr : list (fevent T E)), freach sync g st ths tr -> answers tr -> sensible g tr ->
  forallb is_user (concat ths) = true ->
  (welcomed tr -> asked tr = demand g tr) /\ (onsubs tr = 0 -> asked tr = 0).
Proof. intros T E sync g. exact (at_rest sync g). Qed.
Print Assumptions C58_demand.

Definition asks_by_hand : fcfg := mkF true true true true true false.
Definition asks_itself : fcfg := mkF true true true false true false.
Ltac run s g n ms := let X := fresh in destruct (@fexec nat nat s g ms (flux_create, repeat [FUser] n, [])) as [[[st ths] tr]|] eqn:X;
  [|vm_compute in X; discriminate X]; exists st, ths, tr;
  assert (R : freach s g st ths tr) by (eapply fexec_sound; [apply (f_init s g n)|exact X]);
  vm_compute in X; injection X as <- <- <-.
Ltac cases I := repeat match type of I with _ \/ _ => destruct I as [I|I] end; try contradiction; try discriminate I.
(** On the host: 3 and 4 requested before and after the source comes, 2 after a Cancel; the source was asked for 3, 4 and 2,
    in goroutines of their own. *)
Definition ex_demand : list (fmove nat nat) :=
  [NCall 0 FSubscribe; NStep 0; NCall 0 (FRequest 3); NStep 0; NStep 0; NCall 0 (FOnSubscribe true true); NStep 0; NStep 0; NStep 0; NRet 0; NStep 0; NStep 0;
   NCall 0 (FRequest 4); NStep 0; NStep 0; NStep 0; NRet 0; NStep 2; NStep 2; NStep 1; NStep 1; NCall 1 (FNext 8%nat); NStep 1; NStep 1; NStep 1; NRet 1; NStep 1;
   NCall 0 FCancel; NStep 0; NStep 0; NRet 0; NStep 0; NRet 0; NCall 0 (FRequest 2); NStep 0; NStep 0; NStep 0; NStep 3; NStep 3].
Example C58_ex : exists st ths (tr : list (fevent nat nat)), freach false asks_by_hand st ths tr /\ answers tr /\ sensible asks_by_hand tr /\
  forallb is_user (concat ths) = true /\ welcomed tr /\ demand asks_by_hand tr = 9 /\
  filter (fun e => match e with VReqSrc _ => true | _ => false end) tr = [VReqSrc 4; VReqSrc 3; VReqSrc 2].
Proof.
  run false asks_by_hand 1%nat ex_demand. split; [exact R|]. split; [|split; [|split; [reflexivity|split; [|split; reflexivity]]]].
  - split; [vm_compute; discriminate|]. split; [intros c I; cbn in I; cases I|].
    intros a v b Q. do 6 (destruct a as [|? a]; [discriminate Q|]; injection Q as <- Q). exists 4. do 5 right. left. reflexivity.
  - split; [intros n I; cbn in I; cases I; injection I as <-; lia|]. discriminate.
  - exists [VCall FSubscribe; VCall (FRequest 3)], true. eexists. split; reflexivity.
Qed.
(** A subscription that asks by itself. *)
Example C58_auto_ex : exists st ths (tr : list (fevent nat nat)), freach true asks_itself st ths tr /\ answers tr /\ sensible asks_itself tr /\
  forallb is_user (concat ths) = true /\ welcomed tr /\ demand asks_itself tr = request_max /\ asked tr = request_max.
Proof.
  run true asks_itself 1%nat [NCall 0 FSubscribe; @NStep nat nat 0; NCall 0 (FOnSubscribe true true); NStep 0; NStep 0; NRet 0; NStep 0; NStep 0; NStep 0; NStep 0; NStep 0].
  split; [exact R|]. split; [|split; [|split; [reflexivity|split; [|split; reflexivity]]]].
  - split; [vm_compute; discriminate|]. split; [intros c I; cbn in I; cases I|]. intros a v b Q. repeat (destruct a as [|? a]; [discriminate Q|]; injection Q as <- Q). destruct a; discriminate Q.
  - split; [intros n I; cbn in I; cases I|]. intros _. split; [intros n I; cbn in I; cases I|reflexivity].
  - exists [VCall FSubscribe], true. eexists. split; reflexivity.
Qed.

(** Items sent before the source was asked count against the demand: 3 requested, 1 sent early, and it is asked for 2. *)
Theorem C58_unasked_refuted : exists st ths (tr : list (fevent nat nat)), freach true asks_by_hand st ths tr /\
  sensible asks_by_hand tr /\ forallb is_user (concat ths) = true /\ welcomed tr /\ demand asks_by_hand tr = 3 /\ asked tr = 2.
Proof.
  run true asks_by_hand 1%nat [NCall 0 FSubscribe; @NStep nat nat 0; NCall 0 (FRequest 3); NStep 0; NStep 0; NCall 0 (FNext 1%nat); NStep 0; NStep 0; NStep 0; NRet 0; NStep 0;
    NCall 0 (FOnSubscribe true true); NStep 0; NStep 0; NStep 0; NStep 0; NStep 0; NRet 0; NRet 0; NStep 0; NStep 0; NRet 0].
  split; [exact R|]. split; [|split; [reflexivity|split; [|split; reflexivity]]].
  - split; [intros n I; cbn in I; cases I; injection I as <-; lia|]. discriminate.
  - eexists [_; _; _; _], true. eexists. split; reflexivity.
Qed.
Print Assumptions C58_unasked_refuted.
