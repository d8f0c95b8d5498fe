(** Expected stream numbering: the k-th request (k = 1, 2, ...) of a side. *)
From Coq Require Import List NArith Bool.
From Verif Require Import Base StreamIdModel.
Import ListNotations.
Open Scope N_scope.

(** Clients count 1, 3, 5, ..., servers 2, 4, 6, ..., in 31 bits. *)
Definition kth_id (s : side) (k : N) : N :=
  match s with Client => (2 * k - 1) mod 2^31 | Server => (2 * k) mod 2^31 end.

(** Results of the first [n] requests. *)
Definition first_ids (s : side) (n : nat) : list (N * bool) :=
  map (fun k => (kth_id s (N.of_nat k), N.of_nat k <=? 2^30)) (seq 1 n).
