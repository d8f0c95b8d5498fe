(** Property C10: stream ids. *)
From Coq Require Import List NArith.
From Verif Require Import Base BaseLemmas StreamIdModel StreamIdSpec StreamIdProofs.
Import ListNotations.
Open Scope N_scope.

(** C10. The results of any number of calls below 2^63 are the expected numbering. *)
Theorem C10_ids_follow_numbering : forall n s, N.of_nat n < 2^63 -> Nexts n s 0 = Some (first_ids s n).
Proof. exact Nexts_first. Qed.
Print Assumptions C10_ids_follow_numbering.
Example C10_ids_ex : Nexts 3 Client 0 = Some [(1, true); (3, true); (5, true)]
  /\ Nexts 3 Server 0 = Some [(2, true); (4, true); (6, true)].
Proof. vm_compute. auto. Qed.

(** No two of the first 2^30 calls get the same id. *)
Theorem C10_ids_unique : forall s n l, N.of_nat n <= 2^30 -> Nexts n s 0 = Some l -> NoDup (map fst l).
Proof. exact Nexts_unique. Qed.
Print Assumptions C10_ids_unique.
Example C10_ids_unique_ex : N.of_nat 1000 <= 2^30 /\ exists l, Nexts 1000 Server 0 = Some l /\ length l = 1000%nat.
Proof. split; [discriminate|]. eexists; split; [vm_compute; reflexivity|reflexivity]. Qed.

(** Later on, an id can only reappear 2^30 calls after its last use. *)
Theorem C10_ids_unique_in_every_window : forall s n l i j idi fi idj fj, N.of_nat n < 2^63 -> Nexts n s 0 = Some l ->
  (i < j)%nat -> N.of_nat (j - i) < 2^30 ->
  nth_error l i = Some (idi, fi) -> nth_error l j = Some (idj, fj) -> idi <> idj.
Proof. exact Nexts_window. Qed.
Print Assumptions C10_ids_unique_in_every_window.

(** Client ids are odd, server ids even, both fit 31 bits: the two sides never collide. *)
Theorem C10_sides_disjoint : forall n m lc ls, N.of_nat n < 2^63 -> N.of_nat m < 2^63 ->
  Nexts n Client 0 = Some lc -> Nexts m Server 0 = Some ls ->
  forall idc fc ids fs, In (idc, fc) lc -> In (ids, fs) ls ->
    idc mod 2 = 1 /\ ids mod 2 = 0 /\ idc < 2^31 /\ ids < 2^31 /\ idc <> ids.
Proof. exact Nexts_sides_disjoint. Qed.
Print Assumptions C10_sides_disjoint.

(** The reserved id 0 is handed out exactly at every 2^30-th server call. *)
Theorem C10_zero_iff : forall s n l i id fl, N.of_nat n < 2^63 -> Nexts n s 0 = Some l ->
  nth_error l i = Some (id, fl) -> (id = 0 <-> s = Server /\ N.of_nat (S i) mod 2^30 = 0).
Proof. exact Nexts_zero. Qed.
Print Assumptions C10_zero_iff.

(** The first-loop mark is set exactly on the first 2^30 calls. *)
Theorem C10_first_loop_mark : forall s n l i id fl, N.of_nat n < 2^63 -> Nexts n s 0 = Some l ->
  nth_error l i = Some (id, fl) -> (fl = true <-> N.of_nat i < 2^30).
Proof. exact Nexts_first_loop. Qed.
Print Assumptions C10_first_loop_mark.

(** Hence "no first-loop id is 0" is false: call number 2^30 of a server. *)
Theorem C10_nonzero_in_first_loop_refuted : exists c, Next 2 Server c = Some (2^30, (0, true)).
Proof. exists (2^30 - 1). vm_compute. reflexivity. Qed.
Print Assumptions C10_nonzero_in_first_loop_refuted.

(** The retry loop ends for every value of the counter. *)
Theorem C10_next_total : forall s c, c < 2^64 -> exists c' r, Next 2 s c = Some (c', r) /\ c' < 2^64.
Proof. exact Next_total. Qed.
Print Assumptions C10_next_total.
Example C10_next_total_ex : Next 2 Server (2^63 - 1) = Some (2^63 + 1, (2, false)).
Proof. vm_compute. reflexivity. Qed.
