(** Specification of the adapters of convert.go. *)
From Coq Require Import List NArith ZArith.
From Verif Require Import Base MsgpackModel MsgpackSpec MsgpackReadSpec.
Import ListNotations.

(** The numbers of an integer type of [bits] bits, and the one a number becomes in it: congruent modulo 2^bits. *)
Definition in_type (signed : bool) (bits v : Z) : Prop :=
  if signed then (- 2 ^ (bits - 1) <= v < 2 ^ (bits - 1))%Z else (0 <= v < 2 ^ bits)%Z.
Definition becomes (signed : bool) (bits v r : Z) : Prop :=
  in_type signed bits r /\ exists k, (v = r + k * 2 ^ bits)%Z.

(** What can stand at the position of a field: a number readable as a signed or an unsigned number from [lo] to
    [hi], a truth value, a text. *)
Definition signed_here (lo hi : Z) (tail : bytes) (z : Z) : Prop :=
  (lo <= z <= hi)%Z /\ exists f rest, signed_fmt f /\ int_range f z /\ tail = int_bytes f z ++ rest.
Definition unsigned_here (hi : N) (tail : bytes) (n : N) : Prop :=
  (n <= hi)%N /\ exists f rest, int_range f (Z.of_N n) /\ tail = int_bytes f (Z.of_N n) ++ rest.
Definition bool_here (tail : bytes) (b : bool) : Prop := exists rest, tail = mv_bytes (MBool b) ++ rest.
Definition text_here (tail s : bytes) : Prop := exists hd rest, text_head hd (len s) /\ tail = hd ++ s ++ rest.
