(** C30: slices as sources. *)
From Coq Require Import List Arith ZArith Bool.
From Verif Require Import MonoModel FluxModel FluxSpec FluxProofs SliceModel SliceSpec SliceProofs.
Import ListNotations.

(** FromSlice with any subscriber, and SliceResponse with one that does not request while it is being answered: at every
    moment what was handed out is a prefix of the slice, no longer than what was requested, and the whole slice if
    completion was signalled. *)
Theorem C30_demand : forall {T E} (g : fcfg) response nested, response = false \/ nested = false ->
  forall values st vs stack (tr : list (fevent T E)), sreach g response nested values st vs stack tr ->
  (exists rest, values = handed tr ++ rest) /\ (Z.of_nat (length (handed tr)) <= requested tr)%Z /\
  (signalled tr = true -> handed tr = values).
Proof. intros T E. exact (@slice_bounds_proof T E). Qed.
Print Assumptions C30_demand.

(** Once nothing is running exactly the requested number of items has been handed out, and completion has been signalled
    exactly if something was requested and all items were. *)
Theorem C30_settled : forall {T E} (g : fcfg) response nested, response = false \/ nested = false ->
  forall values st vs (tr : list (fevent T E)), sreach g response nested values st vs [SI FUser] tr ->
  handed tr = firstn (Z.to_nat (requested tr)) values /\
  signalled tr = (asked tr && (Z.of_nat (length values) <=? requested tr)%Z).
Proof. intros T E. exact (@slice_settled_proof T E). Qed.
Print Assumptions C30_settled.

(** A subscriber that did not cancel has received exactly those items, and one completion at the end. *)
Theorem C30_delivered : forall {T E} (g : fcfg) response nested, response = false \/ nested = false -> k_next g = true -> k_complete g = true ->
  forall values st vs (tr : list (fevent T E)), sreach g response nested values st vs [SI FUser] tr -> uncancelled tr = true ->
  delivered tr = map VNext (firstn (Z.to_nat (requested tr)) values) ++
                 (if asked tr && (Z.of_nat (length values) <=? requested tr)%Z then [VComplete] else []).
Proof. intros T E. exact (@slice_delivered_proof T E). Qed.
Print Assumptions C30_delivered.

Definition on_request : fcfg := mkF true true true false true true.
(** Two requests for two items each of a slice of three, the second from OnNext of the first item: FromSlice. *)
Example C30_ex : exists st vs tr, sreach on_request false true [5; 6; 7] st vs [SI FUser] tr /\ uncancelled tr = true /\
  requested tr = 4%Z /\ delivered tr = [VNext 5; VNext 6; VNext 7; @VComplete nat nat].
Proof.
  destruct (@drive nat nat on_request false true 100 [(0, FSubscribe); (0, FRequest 2); (1, FRequest 2)] (flux_create, [5; 6; 7], [SI FUser], []))
    as [[[st vs] stack] tr] eqn:X.
  assert (R : @s_ok nat nat on_request false true [5; 6; 7] (st, vs, stack, tr)) by (rewrite <- X; apply drive_sound, s_init).
  exists st, vs, tr. vm_compute in X. injection X as <- <- <- <-. split; [exact R|]. repeat split.
Qed.
(** The same requests one after the other: SliceResponse. *)
Example C30_response_ex : exists st vs tr, sreach on_request true false [5; 6; 7] st vs [SI FUser] tr /\ uncancelled tr = true /\
  requested tr = 4%Z /\ delivered tr = [VNext 5; VNext 6; VNext 7; @VComplete nat nat].
Proof.
  destruct (@drive nat nat on_request true false 100 [(0, FSubscribe); (9, FRequest 2); (9, FRequest 2)] (flux_create, [5; 6; 7], [SI FUser], []))
    as [[[st vs] stack] tr] eqn:X.
  assert (R : @s_ok nat nat on_request true false [5; 6; 7] (st, vs, stack, tr)) by (rewrite <- X; apply drive_sound, s_init).
  exists st, vs, tr. vm_compute in X. injection X as <- <- <- <-. split; [exact R|]. repeat split.
Qed.

(** SliceResponse with the request made from OnNext hands the same items out again and drops others: the position is only
    moved on after the answer. *)
Theorem C30_response_nested_refuted : exists st vs tr, sreach on_request true true [5; 6; 7; 8] st vs [SI FUser] tr /\
  requested tr = 4%Z /\ delivered tr = [VNext 5; VNext 5; VNext 6; VNext 8; @VComplete nat nat].
Proof.
  destruct (@drive nat nat on_request true true 100 [(0, FSubscribe); (0, FRequest 2); (1, FRequest 2)] (flux_create, [5; 6; 7; 8], [SI FUser], []))
    as [[[st vs] stack] tr] eqn:X.
  assert (R : @s_ok nat nat on_request true true [5; 6; 7; 8] (st, vs, stack, tr)) by (rewrite <- X; apply drive_sound, s_init).
  exists st, vs, tr. vm_compute in X. injection X as <- <- <- <-. split; [exact R|]. repeat split.
Qed.
Print Assumptions C30_response_nested_refuted.

(** And it panics on a negative request, where FromSlice hands out nothing. *)
Theorem C30_response_negative : forall {T E} (g : fcfg) st (vs : list T) n, (n < 0)%Z ->
  sstep (E:=E) g true st vs (SBody n) = Some (st, vs, [SRespond 0 n], []) /\ sstep (E:=E) g true st vs (SRespond 0 n) = None.
Proof.
  intros T E g st vs n H. cbn [sstep]. assert (X : (n <? Z.of_nat (length vs))%Z = true) by (apply Z.ltb_lt; eapply Z.lt_le_trans; [exact H|apply Nat2Z.is_nonneg]).
  rewrite X. split; [reflexivity|]. assert (Y : (0 <? n)%Z = false) by (apply Z.ltb_ge, Z.lt_le_incl, H). rewrite Y. apply Z.ltb_lt in H. rewrite H. reflexivity.
Qed.
Print Assumptions C30_response_negative.
