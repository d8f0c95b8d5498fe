(** Property C66: when a flux asks its subscriber for more, and when it tells its source to stop. *)
From Coq Require Import List Arith ZArith Lia Bool.
From Verif Require Import MonoModel FluxModel FluxSpec FluxProofs FluxDemandSpec FluxDemandProofs FluxDemandProps FluxAskSpec FluxAskProofs.
Import ListNotations.
Open Scope Z_scope.

(** C66. A subscriber with OnRequest never starves: whenever the library has nothing left to do and all the items it requested have been delivered, its
    OnRequest has been run since - in any number of threads, on the host and in a guest, for a source that never sends more than it is asked for. *)
Theorem C66_asked : forall {T E} sync g st ths (tr : list (fevent T E)), asks_more g -> freach sync g st ths tr -> eager tr -> paced tr ->
  forallb is_user (concat ths) = true -> subscribed tr = 1 -> requested tr = items tr -> asked_for_more tr.
Proof. intros T E sync g st ths tr K R Q P U S X. exact (not_starved sync g K st ths tr R Q P U S X). Qed.
Print Assumptions C66_asked.

(** In one thread (a guest) OnRequest is run, but for once (after the source has been subscribed to), only when just as many items have been delivered as
    were requested; and never for a subscriber without it or with NoRequest. *)
Theorem C66_only : forall {T E} g st stack (tr : list (fevent T E)), asks_more g -> freach true g st [stack] tr -> (hasty 0 tr <= 1)%nat.
Proof. intros T E g st stack tr K R. exact (hasty_one g K st stack tr R). Qed.
Print Assumptions C66_only.
Theorem C66_never : forall {T E} sync g st ths (tr : list (fevent T E)), k_norequest g = true \/ k_request g = false -> freach sync g st ths tr -> ~ In VOnRequest tr.
Proof. intros T E sync g st ths tr K R. refine (proj1 (never_asked sync g _ st ths tr R)). destruct K as [-> | ->]; [reflexivity|apply orb_true_r]. Qed.
Print Assumptions C66_never.

(** The source is told to stop no more often than Cancel was called; in one thread, exactly once for every Cancel that was called after the source had handed
    over a Cancel function to a subscription that was still open. *)
Theorem C66_stops : forall {T E} sync g st ths (tr : list (fevent T E)), freach sync g st ths tr -> (stops tr <= cancels (fcalls tr))%nat.
Proof.
  intros T E sync g st ths tr R. destruct (stops_bound sync g st ths tr R) as [B _].
  assert (0 <= total (@wcs T E) (concat ths)) by (apply total_pos; intros [| | | |[] []| | | | | | |]; cbn; lia). lia.
Qed.
Print Assumptions C66_stops.
Theorem C66_told : forall {T E} g st u stack (tr : list (fevent T E)), freach true g st [u :: stack] tr -> is_user u = true -> stops tr = told false false (fcalls tr).
Proof. intros T E g. exact (told_one g). Qed.
Print Assumptions C66_told.

(** A guest's subscriber that requests two items, gets them and is asked again; then it cancels twice. *)
Definition ask_subscribe : list (fmove nat nat) := [NCall 0 FSubscribe; NStep 0; NCall 0 (FOnSubscribe true true); NStep 0; NStep 0; NRet 0; NStep 0; NStep 0].
Definition ask_item (v : nat) : list (fmove nat nat) := [NCall 0 (FNext v); NStep 0; NStep 0; NStep 0; NRet 0; NStep 0].
Definition ex_ask : list (fmove nat nat) := ask_subscribe ++ [NCall 0 (FRequest 2); NStep 0; NStep 0; NStep 0; NStep 0; NStep 0] ++ ask_item 5 ++ ask_item 6 ++ [NStep 0; NStep 0].
Lemma prefixes : forall (tr : list (fevent nat nat)), (forall k, (k <= length tr)%nat -> nexts (firstn k tr) <= asked (firstn k tr)) -> forall a b, tr = a ++ b -> nexts a <= asked a.
Proof. intros tr H a b ->. assert (Q := H (length a) ltac:(rewrite app_length; lia)). rewrite firstn_app, Nat.sub_diag, firstn_all, firstn_O, app_nil_r in Q. exact Q. Qed.
Ltac by_prefix := apply prefixes; intros k L; cbn [length] in L; do 30 (destruct k as [|k]; [vm_compute; discriminate|]); exfalso; lia.
Example C66_ex : exists st ths (tr : list (fevent nat nat)), freach true asks_by_hand st ths tr /\ asks_more asks_by_hand /\ eager tr /\ paced tr /\ forallb is_user (concat ths) = true /\
  subscribed tr = 1 /\ requested tr = 2 /\ items tr = 2 /\ asks tr = 2%nat /\ hasty 0 tr = 0%nat /\ told false false (fcalls tr) = 2%nat /\ stops tr = 2%nat.
Proof.
  run true asks_by_hand 1%nat (ex_ask ++ [NCall 0 FCancel; NStep 0; NStep 0; NRet 0; NStep 0; NRet 0; NCall 0 FCancel; NStep 0; NStep 0; NRet 0; NStep 0; NRet 0]).
  split; [exact R|]. split; [repeat split|]. split; [intros n I; cbn in I; cases I; injection I as <-; lia|]. split.
  - split; [vm_compute; discriminate|]. split; [intros c I; cbn in I; cases I|]. by_prefix.
  - repeat split.
Qed.

(** On the host a request made by another thread can come between the test and OnRequest: 2 requested, 2 delivered, 5 more requested, and then asked. *)
Theorem C66_threads_refuted : exists st ths (tr : list (fevent nat nat)), freach false asks_by_hand st ths tr /\ asks_more asks_by_hand /\ eager tr /\ paced tr /\ hasty 0 tr = 1%nat /\
  exists a b, tr = a ++ VOnRequest :: b /\ asks a = 1%nat /\ hasty 0 a = 0%nat /\ requested a = 7 /\ items a = 2.
Proof.
  run false asks_by_hand 2%nat ([NCall 0 FSubscribe; @NStep nat nat 0; NCall 0 (FOnSubscribe true true); NStep 0; NStep 0; NRet 0; NStep 0; NStep 0; NCall 0 (FRequest 2); NStep 0; NStep 0; NStep 0; NRet 0;
    NStep 2; NStep 2; NCall 2 (FNext 5%nat); NStep 2; NStep 2; NStep 2; NRet 2; NStep 2; NCall 2 (FNext 6%nat); NStep 2; NStep 2; NStep 2; NRet 2; NStep 2; NStep 2; NCall 1 (FRequest 5); NStep 1; NStep 1; NStep 2]).
  split; [exact R|]. split; [repeat split|]. split; [intros n I; cbn in I; cases I; injection I as <-; lia|]. split.
  - split; [vm_compute; discriminate|]. split; [intros c I; cbn in I; cases I|]. by_prefix.
  - split; [reflexivity|]. eexists [_; _; _; _; _; _; _; _; _; _], []. split; [reflexivity|]. repeat split.
Qed.
Print Assumptions C66_threads_refuted.

(** A source that sends more than it is asked for: 1 requested, 2 sent, 1 more requested - and, with both delivered, nobody asks. *)
Theorem C66_overrun_refuted : exists st ths (tr : list (fevent nat nat)), freach true asks_by_hand st ths tr /\ asks_more asks_by_hand /\ eager tr /\ forallb is_user (concat ths) = true /\
  subscribed tr = 1 /\ requested tr = items tr /\ ~ asked_for_more tr.
Proof.
  run true asks_by_hand 1%nat (ask_subscribe ++ [NCall 0 (FRequest 1); NStep 0; NStep 0; NStep 0; NStep 0; NStep 0] ++ ask_item 5 ++ [NStep 0; NStep 0; NRet 0] ++ ask_item 6 ++ [NRet 0; NCall 0 (FRequest 1); NStep 0; NStep 0; NStep 0; NStep 0; NStep 0; NRet 0; NRet 0]).
  split; [exact R|]. split; [repeat split|]. split; [intros n I; cbn in I; cases I; injection I as <-; lia|]. do 3 (split; [reflexivity|]).
  intros (a & b & Q & Ra & Ia). repeat (destruct a as [|? a]; [first [discriminate Q|exfalso; vm_compute in Ia; discriminate Ia]|injection Q as <- Q]). destruct a; discriminate Q.
Qed.
Print Assumptions C66_overrun_refuted.

(** A Cancel called before the source hands over its functions never reaches it: nor do they any more. *)
Theorem C66_early_refuted : exists st (tr : list (fevent nat nat)), freach true asks_by_hand st [[FUser]] tr /\
  (exists a b, tr = a ++ VCall FCancel :: b /\ In (VCall (FOnSubscribe true true)) b) /\ In (VCall (FNext 7%nat)) tr /\ stops tr = 0%nat /\ cancels (fcalls tr) = 1%nat.
Proof.
  destruct (@fexec nat nat true asks_by_hand [NCall 0 FSubscribe; NStep 0; NCall 0 FCancel; NStep 0; NStep 0; NStep 0; NRet 0; NCall 0 (FOnSubscribe true true); NStep 0; NCall 0 (FNext 7%nat); NStep 0; NRet 0; NStep 0; NStep 0; NRet 0] (flux_create, [[FUser]], [])) as [[[st ths] tr]|] eqn:X; [|vm_compute in X; discriminate X].
  assert (R := fexec_sound _ _ _ _ _ _ _ _ _ (f_init true asks_by_hand 1) X). exists st, tr. vm_compute in X. injection X as <- <- <-. split; [exact R|]. split; [|repeat split].
  - eexists [_], _. split; [reflexivity|]. cbn. tauto.
  - cbn. tauto.
Qed.
Print Assumptions C66_early_refuted.
