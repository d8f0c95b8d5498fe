(** Times in MessagePack, as the format describes them: extensions of type -1 with 4, 8 or 12 bytes of data.  From the model only the type [gtime] is used. *)
From Coq Require Import List NArith ZArith Bool.
From Verif Require Import Base MsgpackModel MsgpackSpec MsgpackReadSpec.
Import ListNotations.
Open Scope N_scope.

(** [t] is the moment [s] seconds and [ns] nanoseconds after the epoch, seconds counted modulo 2^64. *)
Definition moment (s : Z) (ns : N) (t : gtime) : Prop :=
  (-2^63 <= t_sec t < 2^63)%Z /\ t_nsec t < 1000000000 /\
  exists k, (t_sec t * 1000000000 + Z.of_N (t_nsec t) = s * 1000000000 + Z.of_N ns + k * 2^64 * 1000000000)%Z.

(** The data of a timestamp: seconds; 30 bits of nanoseconds and 34 of seconds; 32 bits of nanoseconds and signed seconds. *)
Inductive stamp : bytes -> gtime -> Prop :=
| stamp32 : forall s t, s < 2^32 -> moment (Z.of_N s) 0 t -> stamp (be 4 s) t
| stamp64 : forall s ns t, s < 2^34 -> ns < 2^30 -> moment (Z.of_N s) ns t -> stamp (be 8 (ns * 2^34 + s)) t
| stamp96 : forall s ns t, (-2^63 <= s < 2^63)%Z -> ns < 2^32 -> moment s ns t -> stamp (be 4 ns ++ be 8 (Z.to_N (s mod 2^64))) t.

(** How an extension of [n] bytes begins: in the tag (for 4 and 8 bytes), or - as this code wants it, not as MessagePack has it - with any of the
    three tags followed by any encoding of the number [n]. *)
Definition length_item (bs : bytes) (n : N) : Prop := exists f, int_range f (Z.of_N n) /\ bs = int_bytes f (Z.of_N n).
Definition stamp_head (hd : bytes) (n : N) : Prop :=
  (hd = [0xd6] /\ n = 4) \/ (hd = [0xd7] /\ n = 8) \/ exists c bs, In c [0xc7; 0xc8; 0xc9] /\ hd = c :: bs /\ length_item bs n.

(** What stands for a time: a text the parser of texts takes, or a timestamp of type -1 or 13. *)
Definition time_item (pt : bytes -> option gtime) (bs : bytes) (t : gtime) : Prop :=
  (exists hd s, text_head hd (len s) /\ bs = hd ++ s /\ pt s = Some t) \/
  (exists hd id data, stamp_head hd (len data) /\ (id = 255 \/ id = 13) /\ bs = hd ++ [id] ++ data /\ stamp data t).

(** The shortest head of an extension of [n] bytes. *)
Definition short_ext (n : N) : len_fmt :=
  if (n =? 1) || (n =? 2) || (n =? 4) || (n =? 8) || (n =? 16) then InTag else if n <? 2^8 then Len8 else if n <? 2^16 then Len16 else Len32.

(** Go's [==] on the values a map key can have: floating-point numbers are compared as numbers. *)
Definition not_number (e m x : N) : Prop := x / 2 ^ m mod 2 ^ e = 2 ^ e - 1 /\ x mod 2 ^ m <> 0.
Definition same_float (e m x y : N) : Prop :=
  ~ not_number e m x /\ ~ not_number e m y /\ (x = y \/ x mod 2 ^ (e + m) = 0 /\ y mod 2 ^ (e + m) = 0).
Definition same_key (a b : dv) : Prop :=
  match a, b with
  | DNil, DNil => True
  | DBool x, DBool y => x = y
  | DI8 x, DI8 y | DI16 x, DI16 y | DI32 x, DI32 y | DI64 x, DI64 y => x = y
  | DU8 x, DU8 y | DU16 x, DU16 y | DU32 x, DU32 y | DU64 x, DU64 y => x = y
  | DF32 x, DF32 y => same_float 8 23 x y
  | DF64 x, DF64 y => same_float 11 52 x y
  | DStr x, DStr y => x = y
  | _, _ => False
  end.
