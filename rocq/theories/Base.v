(** Shared vocabulary of the model: outcomes, bytes, big-endian numbers, Go slices as lists. *)
From Coq Require Import List NArith Lia Bool.
Import ListNotations.
Open Scope N_scope.

(** Result of running Go code: a value, a returned [error], or a run-time panic.
    Convention of the model, no /repo counterpart. *)
Inductive outcome (E A : Type) : Type :=
| Ret (a : A)
| Fail (e : E)
| Panic.
Arguments Ret {E A} a.
Arguments Fail {E A} e.
Arguments Panic {E A}.

(** Sequencing of Go statements that may return an error or panic.
    Convention of the model, no /repo counterpart. *)
Definition bind {E A B : Type} (m : outcome E A) (k : A -> outcome E B) : outcome E B :=
  match m with
  | Ret a => k a
  | Fail e => Fail e
  | Panic => Panic
  end.
Notation "'do' x <- m ; k" := (bind m (fun x => k)) (at level 200, x pattern, m at level 100, k at level 200).

(** Go [byte] as a number; a buffer is a list of those. *)
Notation bytes := (list N).

(** A number is a byte. *)
Definition is_byte (b : N) : Prop := b < 256.

(** All elements of a buffer are bytes (holds of every Go [[]byte]). *)
Definition wf (l : bytes) : Prop := Forall is_byte l.

(** Decision procedure for [wf], used to exhibit examples. *)
Definition wfb (l : bytes) : bool := forallb (fun b => b <? 256) l.

(** Go unsigned conversions [uint8(v)], [uint16(v)], [uint32(v)], [uint64(v)]. *)
Definition u8 (v : N) : N := v mod 2^8.
Definition u16 (v : N) : N := v mod 2^16.
Definition u32 (v : N) : N := v mod 2^32.
Definition u64 (v : N) : N := v mod 2^64.

(** Go unsigned 32-bit subtraction, wrapping. *)
Definition sub32 (a b : N) : N := (a + 2^32 - b mod 2^32) mod 2^32.

(** Length of a Go slice as a number. *)
Definition len {A} (l : list A) : N := N.of_nat (length l).

(** encoding/binary BigEndian.PutUintXX: most significant byte first; [w] is the width in bytes. *)
Fixpoint be (w : nat) (v : N) : bytes :=
  match w with
  | O => []
  | S w' => (N.shiftr v (8 * N.of_nat w')) mod 256 :: be w' v
  end.

(** encoding/binary BigEndian.UintXX. *)
Definition unbe (l : bytes) : N := fold_left (fun acc b => N.lor (N.shiftl acc 8) b) l 0.

(** Go [s[n:]]: panics when [n > len s]. *)
Definition slice_from {E A} (l : list A) (n : N) : outcome E (list A) :=
  if n <=? len l then Ret (skipn (N.to_nat n) l) else Panic.

(** Go [s[:n]] on a slice whose capacity equals its length: panics when [n > len s].
    Simplification: Go compares with the capacity; wherever the code takes [s[:n]] of a slice with spare
    capacity it is followed by [s[n:]], which panics in the same situation. *)
Definition slice_to {E A} (l : list A) (n : N) : outcome E (list A) :=
  if n <=? len l then Ret (firstn (N.to_nat n) l) else Panic.

(** Go [copy(dst, src)]: overwrites the first [min] elements of [dst]. *)
Definition overlay (dst src : bytes) : bytes :=
  firstn (length dst) src ++ skipn (length src) dst.

(** Go [copy(buf[off:], src)], panicking when [off > len buf]. *)
Definition copy_at {E} (buf : bytes) (off : N) (src : bytes) : outcome E bytes :=
  if off <=? len buf
  then Ret (firstn (N.to_nat off) buf ++ overlay (skipn (N.to_nat off) buf) src)
  else Panic.

(** encoding/binary [PutUintXX(buf[off:], v)]: panics when the slice is too short. *)
Definition put_at {E} (buf : bytes) (off : N) (src : bytes) : outcome E bytes :=
  if off + len src <=? len buf then copy_at buf off src else Panic.

(** encoding/binary [UintXX(l)] on the first [w] bytes: panics when the slice is shorter. *)
Definition get_be {E} (w : nat) (l : bytes) : outcome E N :=
  if N.of_nat w <=? len l then Ret (unbe (firstn w l)) else Panic.
