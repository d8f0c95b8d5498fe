(** What UUID text, random UUIDs and UUID clocks should be, without reference to the code. *)
From Coq Require Import List NArith ZArith.
From Verif Require Import Base.
Import ListNotations.
Open Scope N_scope.

(** ** Text *)
(** [digit c v]: the character [c] is a hexadecimal digit, in either case, of value [v]. *)
Definition digit (c v : N) : Prop :=
  (48 <= c <= 57 /\ v = c - 48) \/ (65 <= c <= 70 /\ v = c - 55) \/ (97 <= c <= 102 /\ v = c - 87).
(** Two digits per byte. *)
Inductive hexes : bytes -> bytes -> Prop :=
| Hnil : hexes [] []
| Hcons : forall a b h l s u, digit a h -> digit b l -> hexes s u -> hexes (a :: b :: s) (h * 16 + l :: u).
(** xxxxxxxx-xxxx-xxxx-xxxx-xxxxxxxxxxxx; 45 is the hyphen. *)
Definition dashed (s u : bytes) : Prop :=
  exists a b c d e, s = a ++ 45 :: b ++ 45 :: c ++ 45 :: d ++ 45 :: e /\
    len a = 8 /\ len b = 4 /\ len c = 4 /\ len d = 4 /\ len e = 12 /\ hexes (a ++ b ++ c ++ d ++ e) u.
(** Equal letters up to ASCII case. *)
Definition same_letter (a b : N) : Prop := a = b \/ (97 <= b <= 122 /\ a + 32 = b).
(** The four notations; 117 114 110 58 117 117 105 100 58 is "urn:uuid:".  Of the braces only the places are looked at. *)
Definition spelled (s u : bytes) : Prop :=
  dashed s u \/
  (exists p r, s = p ++ r /\ Forall2 same_letter p [117; 114; 110; 58; 117; 117; 105; 100; 58] /\ dashed r u) \/
  (exists x r y, s = x :: r ++ [y] /\ dashed r u) \/
  (len s = 32 /\ hexes s u).
(** Lower case digits only. *)
Definition lower_hex (c : N) : Prop := 48 <= c <= 57 \/ 97 <= c <= 102.

(** ** Random *)
(** The 122 free bits: all but the upper half of byte 6 and the upper two bits of byte 8. *)
Definition free_bit (byte bit : N) : Prop :=
  byte < 16 /\ bit < 8 /\ ~ (byte = 6 /\ 4 <= bit) /\ ~ (byte = 8 /\ 6 <= bit).
Definition bit_of (u : bytes) (byte bit : N) : bool := N.testbit (nth (N.to_nat byte) u 0) bit.
(** Stretches of 16 starting at the given positions do not overlap and come in order. *)
Fixpoint apart (from : nat) (l : list nat) : Prop :=
  match l with [] => True | o :: l' => (from <= o)%nat /\ apart (o + 16) l' end.

(** ** Clock *)
(** The first three fields and the fourth of a time-based UUID (RFC 4122, 4.1.2): time in 100 ns, version, clock sequence, node. *)
Definition rfc_uuid (t ver seq : N) (node : bytes) : bytes :=
  be 4 (t mod 2^32) ++ be 2 (t / 2^32 mod 2^16) ++ be 2 (ver * 2^12 + t / 2^48 mod 2^12) ++ be 2 (2^15 + seq) ++ node.

(** The signs of the two parts agree and the nanoseconds are less than a second. *)
Definition split_seconds (total sec nsec : Z) : Prop :=
  (sec * 1000000000 + nsec = total /\ Z.abs nsec < 1000000000 /\ (0 <= total -> 0 <= nsec) /\ (total <= 0 -> nsec <= 0))%Z.
