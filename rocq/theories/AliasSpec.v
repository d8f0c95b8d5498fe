(** What the user of a decoded value relies on. *)
From Coq Require Import List Bool Arith NArith.
From Verif Require Import Base MsgpackModel RecycleModel RecycleSpec AliasModel.
Open Scope nat_scope.
Import ListNotations.

(** The methods of the decoder that return bytes of its buffer. *)
Definition returns_bytes (read : M bytes) : Prop := read = ReadString \/ read = ReadByteArray.

(** At the end of the run [l], in the handling of the frame the slice [w] is of, [b] was decoded from [w]; [v] is where the user's value is. *)
Definition decoded (read : M bytes) (l : list raction) (w v : view) (b : bytes) : Prop :=
  exists s off off' d, recycled l s /\ In w (r_views s) /\ current s w /\ read (mkDR (reads s w) off false) = Ret (b, d) /\ at_slice read s w off = Some (v, off').
