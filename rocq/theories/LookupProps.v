(** Property C12: the stream registry. *)
From Coq Require Import List NArith.
From Verif Require Import Base LookupModel LookupSpec LookupProofs.
Import ListNotations.
Open Scope N_scope.

(** C12. For a history that never registers an id in use, every lookup in every intermediate state answers
    like a map, if and only if the history never removes the stream registered first. *)
Theorem C12_map_iff : forall (St : Type) (ops : list (lop St)), fresh_adds ops ->
  ((forall pre post id, ops = pre ++ post ->
      exists l, lrun empty_lookup pre = Some l /\ Get l id = Some (map_after pre id))
   <-> ~ removes_oldest ops).
Proof. exact @map_iff. Qed.
Print Assumptions C12_map_iff.
Definition C12_good : list (lop N) := [OAdd 1 10; OAdd 3 30; OAdd 5 50; ORemove 3; OAdd 7 70; ORemove 7; OAdd 3 31].
Example C12_good_ex : exists l, lrun empty_lookup C12_good = Some l /\
  map (Get l) [1;3;5;7] = [Some (Some 10); Some (Some 31); Some (Some 50); Some None].
Proof. eexists. split; [reflexivity|]. vm_compute. reflexivity. Qed.
Example C12_good_fresh : fresh_adds C12_good /\ ~ removes_oldest C12_good.
Proof.
  split.
  - intros pre id s post H. do 7 (destruct pre as [|? pre]; [cbn in H; inversion H; subst; try reflexivity|cbn in H; injection H as <- H]).
    destruct pre; discriminate.
  - intros (pre & id & s & post & H & Ho).
    do 7 (destruct pre as [|? pre]; [cbn in H; inversion H; subst; cbn in Ho; try discriminate|cbn in H; injection H as <- H]).
    all: destruct pre; discriminate.
Qed.

(** Whatever the history, the first stream ever registered is found under its id, removed or not. *)
Theorem C12_oldest_found_forever : forall (St : Type) (ops : list (lop St)) id s, oldest ops = Some (id, s) ->
  exists l, lrun empty_lookup ops = Some l /\ Get l id = Some (Some s).
Proof. exact @oldest_forever. Qed.
Print Assumptions C12_oldest_found_forever.
Example C12_oldest_ex : exists l, lrun empty_lookup [ORemove 4; OAdd 1 10; ORemove 1; OAdd 1 11] = Some l
  /\ Get l 1 = Some (Some 10).
Proof. eexists. split; [reflexivity|]. vm_compute. reflexivity. Qed.

(** Every history, fresh or not: all operations return (no endless walk, no nil dereference) and lookups
    answer like the list of entries described in LookupSpec. *)
Theorem C12_every_history : forall (St : Type) (ops : list (lop St)), exists l, lrun empty_lookup ops = Some l
  /\ forall id, Get l id = Some (chain_get (chain_after ops) id).
Proof. exact @refinement. Qed.
Print Assumptions C12_every_history.

(** Hence "lookups answer like a map" is false: after the first stream is removed, so is the removal of the
    second one. *)
Theorem C12_map_refuted : exists (ops : list (lop N)) l, fresh_adds ops /\ lrun empty_lookup ops = Some l
  /\ map_after ops 1 = None /\ Get l 1 = Some (Some 10) /\ map_after ops 2 = None /\ Get l 2 = Some (Some 20).
Proof.
  exists [OAdd 1 10; OAdd 2 20; ORemove 1; ORemove 2]. eexists. split; [|split; [reflexivity|vm_compute; auto]].
  intros pre id s post H. do 4 (destruct pre as [|? pre]; [cbn in H; inversion H; subst; try reflexivity|cbn in H; injection H as <- H]).
  destruct pre; discriminate.
Qed.
Print Assumptions C12_map_refuted.
