(** Property C76: calls of the stream registry made at the same time. *)
From Coq Require Import List NArith Lia.
From Verif Require Import Base LookupModel LookupSpec LookupProofs LookupRaceModel LookupRaceSpec LookupRaceProofs.
Import ListNotations.
Open Scope nat_scope.

(** A run for the examples: three streams are registered one after the other; then a Get of the third walks to the
    second, which is removed before the Get reads on. *)
Definition steps_of (i n : nat) : list (rmove N) := repeat (MStep i) n.
Definition C76_build : list (rmove N) :=
  [MCall (CAdd 1%N 10%N); MCall (CAdd 3%N 30%N); MCall (CAdd 5%N 50%N)] ++ steps_of 0 6 ++ steps_of 1 8 ++ steps_of 2 9.
Definition C76_walk : list (rmove N) :=
  C76_build ++ [MCall (CGet 5%N); MCall (CRemove 3%N)] ++ steps_of 3 4 ++ steps_of 4 8 ++ steps_of 3 2.

(** C76. Whatever Adds and Removes run at the same time, a Get answers as the sequential Get would have answered at a
    moment between its beginning and its end. *)
Theorem C76_get : forall (St : Type) (w : world St) i t id r, race_reach w -> runs w i t -> t_call t = CGet id -> t_pc t = GDone r ->
  exists k, during t k /\ exists l, lrun empty_lookup (firstn k (effects w)) = Some l /\ Get l id = Some r.
Proof. exact @get_linear. Qed.
Print Assumptions C76_get.
Example C76_get_ex : exists w t, rrun world0 C76_walk = Some w /\ runs w 3 t /\ t_call t = CGet 5%N /\ t_pc t = GDone (Some 50%N)
  /\ t_from t = 3 /\ t_till t = 4 /\ effects w = [OAdd 1 10; OAdd 3 30; OAdd 5 50; ORemove 3]%N.
Proof. do 2 eexists. split; [vm_compute; reflexivity|]. vm_compute. repeat split. Qed.

(** Each Add and each Remove that has returned took effect exactly once, between its beginning and its end. *)
Theorem C76_write : forall (St : Type) (w : world St) i t o, race_reach w -> runs w i t -> writes (t_call t) = Some o -> returned t ->
  exists k, t_from t <= k /\ k < t_till t /\ nth_error (w_hist w) k = Some (i, o)
    /\ forall k' o', nth_error (w_hist w) k' = Some (i, o') -> k' = k.
Proof. exact @write_once. Qed.
Print Assumptions C76_write.
Example C76_write_ex : exists w t, rrun world0 C76_walk = Some w /\ runs w 4 t /\ t_pc t = WDone /\ t_from t = 3
  /\ nth_error (w_hist w) 3 = Some (4, ORemove 3%N).
Proof. do 2 eexists. split; [vm_compute; reflexivity|]. vm_compute. repeat split. Qed.

(** Nothing else takes effect. *)
Theorem C76_nothing_else : forall (St : Type) (w : world St) k i o, race_reach w -> nth_error (w_hist w) k = Some (i, o) ->
  exists t, runs w i t /\ writes (t_call t) = Some o /\ t_from t <= k /\ k < t_till t.
Proof. exact @hist_made. Qed.
Print Assumptions C76_nothing_else.
Example C76_nothing_else_ex : exists w, rrun world0 C76_walk = Some w /\ map fst (w_hist w) = [0; 1; 2; 4].
Proof. eexists. split; [vm_compute; reflexivity|]. vm_compute. reflexivity. Qed.

(** While nobody holds the mutex, the registry is the one the same Adds and Removes give one after the other. *)
Theorem C76_state : forall (St : Type) (w : world St), race_reach w -> w_lock w = None ->
  exists l, lrun empty_lookup (effects w) = Some l /\ forall id, Get (w_l w) id = Get l id.
Proof. exact @state_seq. Qed.
Print Assumptions C76_state.
Example C76_state_ex : exists w, rrun world0 C76_walk = Some w /\ w_lock w = None
  /\ map (Get (w_l w)) [1; 3; 5]%N = [Some (Some 10%N); Some None; Some (Some 50%N)].
Proof. eexists. split; [vm_compute; reflexivity|]. vm_compute. auto. Qed.

(** So a stream that is registered the whole time a Get of its id runs is found, and an id under which none is
    registered the whole time is not: while no id is registered twice and the stream registered first stays. *)
Theorem C76_registered : forall (St : Type) (w : world St) i t id r x, race_reach w -> runs w i t -> t_call t = CGet id ->
  t_pc t = GDone r -> fresh_adds (effects w) -> ~ removes_oldest (effects w) ->
  (forall k, during t k -> held w k id = x) -> r = x.
Proof.
  intros St w i t id r x HR Ht Hc Hp HF HO HX. destruct (get_map w i t id r HR Ht Hc Hp HF HO) as (k & D & ->). apply HX, D.
Qed.
Print Assumptions C76_registered.
Example C76_registered_ex : exists w t, rrun world0 C76_walk = Some w /\ runs w 3 t /\ t_pc t = GDone (Some 50%N)
  /\ fresh_adds (effects w) /\ ~ removes_oldest (effects w) /\ forall k, during t k -> held w k 5%N = Some 50%N.
Proof.
  do 2 eexists. split; [vm_compute; reflexivity|]. split; [reflexivity|]. split; [reflexivity|]. split; [|split].
  - intros pre id s post H. unfold effects in H. cbn [w_hist map snd] in H.
    do 4 (destruct pre as [|? pre]; [cbn in H; inversion H; subst; try reflexivity|cbn in H; injection H as <- H]).
    destruct pre; discriminate.
  - intros (pre & id & s & post & H & Ho). unfold effects in H. cbn [w_hist map snd] in H.
    do 4 (destruct pre as [|? pre]; [cbn in H; inversion H; subst; cbn in Ho; try discriminate|cbn in H; injection H as <- H]).
    all: destruct pre; discriminate.
  - intros k [A B]. cbn in A, B. assert (k = 3 \/ k = 4) as [->| ->] by lia; reflexivity.
Qed.

(** In general a Get answers as the map of registered streams at some moment while it ran. *)
Theorem C76_map : forall (St : Type) (w : world St) i t id r, race_reach w -> runs w i t -> t_call t = CGet id -> t_pc t = GDone r ->
  fresh_adds (effects w) -> ~ removes_oldest (effects w) -> exists k, during t k /\ r = held w k id.
Proof. exact @get_map. Qed.
Print Assumptions C76_map.
(** With the run of C76_registered_ex the moment can be either of the two. *)
Example C76_map_ex : exists w t, rrun world0 C76_walk = Some w /\ runs w 3 t /\ during t 3 /\ during t 4
  /\ held w 3 3%N = Some 30%N /\ held w 4 3%N = None /\ held w 3 5%N = Some 50%N /\ held w 4 5%N = Some 50%N.
Proof. do 2 eexists. split; [vm_compute; reflexivity|]. split; [reflexivity|]. unfold during. cbn. repeat split; lia. Qed.

(** No call dereferences nil, though Get walks over nodes that are being unlinked. *)
Theorem C76_no_crash : forall (St : Type) (w : world St) i t, race_reach w -> runs w i t -> t_pc t <> Crash.
Proof. exact @no_crash. Qed.
Print Assumptions C76_no_crash.
(** The Get stands on the node with address 1, which the Remove has unlinked. *)
Example C76_no_crash_ex : exists w t,
  rrun world0 (C76_build ++ [MCall (CGet 5%N); MCall (CRemove 3%N)] ++ steps_of 3 4 ++ steps_of 4 8) = Some w
  /\ runs w 3 t /\ t_pc t = GNext 1 /\ Get (w_l w) 3%N = Some None.
Proof. do 2 eexists. split; [vm_compute; reflexivity|]. vm_compute. auto. Qed.

(** A Get never waits, some goroutine can always go on until all calls have returned, and no call takes more steps than
    there are registrations to walk over: with finitely many calls, every call returns. *)
Theorem C76_get_never_waits : forall (St : Type) (w : world St) i t id, race_reach w -> runs w i t -> t_call t = CGet id -> ~ returned t ->
  exists w', tstep w i = Some w'.
Proof. exact @get_moves. Qed.
Print Assumptions C76_get_never_waits.
Theorem C76_no_deadlock : forall (St : Type) (w : world St) i t, race_reach w -> runs w i t -> ~ returned t ->
  exists j w', tstep w j = Some w'.
Proof. exact @some_moves. Qed.
Print Assumptions C76_no_deadlock.
(** An Add waits for the Remove that holds the mutex; the Remove can go on. *)
Example C76_no_deadlock_ex : exists w, rrun world0 (C76_build ++ [MCall (CAdd 7%N 70%N); MCall (CRemove 3%N); MStep 4]) = Some w
  /\ tstep w 3 = None /\ tstep w 4 <> None.
Proof. eexists. split; [vm_compute; reflexivity|]. split; [reflexivity|discriminate]. Qed.
Theorem C76_steps : forall (St : Type) (w : world St) i t, race_reach w -> runs w i t -> t_steps t <= 2 * adds w + 7.
Proof. exact @few_steps. Qed.
Print Assumptions C76_steps.
Example C76_steps_ex : exists w, rrun world0 (C76_build ++ [MCall (CGet 5%N); MCall (CRemove 3%N); MStep 4]) = Some w
  /\ w_lock w = Some 4 /\ adds w = 3 /\ map (@t_steps N) (w_ths w) = [6; 8; 9; 0; 1]
  /\ tstep w 3 <> None /\ (exists t, runs w 3 t /\ ~ returned t).
Proof.
  eexists. split; [vm_compute; reflexivity|]. split; [reflexivity|]. split; [reflexivity|]. split; [reflexivity|].
  split; [discriminate|]. eexists. split; [reflexivity|]. exact (fun x => x).
Qed.

(** What a Get returns need not be registered any more when it returns: the stream can be removed while the Get looks at
    its node.  (A frame can be handed to a stream that has just been removed.) *)
Theorem C76_still_registered_refuted : exists (w : world N) i t, race_reach w /\ runs w i t /\ t_call t = CGet 3%N
  /\ t_pc t = GDone (Some 30%N) /\ held w (t_till t) 3%N = None.
Proof.
  pose (ms := C76_build ++ [MCall (CGet 3%N); MCall (CRemove 3%N)] ++ steps_of 3 3 ++ steps_of 4 8 ++ steps_of 3 1).
  assert (E : exists w t, rrun world0 ms = Some w /\ runs w 3 t /\ t_call t = CGet 3%N /\ t_pc t = GDone (Some 30%N)
              /\ held w (t_till t) 3%N = None).
  { do 2 eexists. split; [vm_compute; reflexivity|]. vm_compute. auto. }
  destruct E as (w & t & A & B & C & D & F). exists w, 3, t. split; [exists ms; exact A|]. auto.
Qed.
Print Assumptions C76_still_registered_refuted.
