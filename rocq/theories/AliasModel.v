(** Model of where the strings and byte arrays decoded from a payload are: go/msgpack/data_reader.go:23-30 GetBytes returns a slice of the buffer, go/msgpack/decoder.go:504 makes
    a string of it without copying (go/msgpack/unsafe.go:15-18 UnsafeString), decoder.go:512-516 returns it as it is.  The buffer is the payload's data, which on a host is a slice
    of a pooled buffer (RecycleModel).  Code only; no proofs. *)
From Coq Require Import List Bool Arith NArith.
From Verif Require Import Base MsgpackModel RecycleModel.
Open Scope nat_scope.
Import ListNotations.

(** w[off : off+n] *)
Definition sub (w : view) (off n : nat) : view := mkView (v_array w) (v_off w + off) n (slice (v_bytes w) off n) (v_frame w).

(** A method of the decoder that returns bytes by GetBytes as its last step, on the slice [w] from [off] on: the slice it returns and the offset it leaves.  The slice is
    buffer[byteOffset-n : byteOffset], data_reader.go:27-28. *)
Definition at_slice (read : M bytes) (s : rstate) (w : view) (off : N) : option (view * N) :=
  match read (mkDR (reads s w) off false) with
  | Ret (b, d) => Some (sub w (N.to_nat (d_off d) - length b) (length b), d_off d)
  | _ => None
  end.

(** ReadString, decoder.go:452-455 with 496-505; ReadByteArray, decoder.go:507-517. *)
Definition string_at : rstate -> view -> N -> option (view * N) := at_slice ReadString.
Definition bytes_at : rstate -> view -> N -> option (view * N) := at_slice ReadByteArray.
