(** Model of go/internal/socket/stream_id.go. *)
From Coq Require Import List NArith Bool.
From Verif Require Import Base.
Import ListNotations.
Open Scope N_scope.

(** go/internal/socket/stream_id.go:7-10 constants. *)
Definition maskStreamID : N := 0x7FFFFFFF.
Definition halfSeed : N := 0x40000000.

(** Which side of a connection numbers its requests. *)
Inductive side := Client | Server.

(** go/internal/socket/stream_id.go:23 ([v := 2 * seed]) and :35 ([v := 2*(seed-1) + 1]), uint64 arithmetic;
    [seed - 1] never underflows before the multiplication wraps it, so it is computed as [seed + 2^64 - 1]. *)
Definition raw_id (s : side) (seed : N) : N :=
  match s with
  | Server => u64 (2 * seed)
  | Client => u64 (2 * u64 (seed + 2^64 - 1) + 1)
  end.

(** go/internal/socket/stream_id.go:20-28 ServerStreamIDs.Next and :32-40 ClientStreamIDs.Next. The counter is
    the state; atomic.AddUint64 returns the incremented value. [None]: still retrying after [fuel] rounds. *)
Fixpoint Next (fuel : nat) (s : side) (counter : N) : option (N * (N * bool)) :=
  match fuel with
  | O => None
  | S fuel' =>
    let seed := u64 (counter + 1) in
    let v := raw_id s seed in
    if negb (v =? 0)
    then Some (seed, (u32 (N.land maskStreamID v), seed <=? halfSeed))
    else Next fuel' s seed
  end.

(** [n] successive calls. Concurrent callers are serialised by the atomic increment, so the results of any
    interleaving are the results of a sequence of calls; each call uses two rounds at most (proved). *)
Fixpoint Nexts (n : nat) (s : side) (counter : N) : option (list (N * bool)) :=
  match n with
  | O => Some []
  | S n' => match Next 2 s counter with
            | None => None
            | Some (c, r) => match Nexts n' s c with
                             | None => None
                             | Some l => Some (r :: l)
                             end
            end
  end.
