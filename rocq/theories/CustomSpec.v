(** WebAssembly modules as far as custom sections are concerned, after the binary format of the specification. *)
From Coq Require Import List NArith Bool.
From Verif Require Import Base.
Import ListNotations.
Open Scope N_scope.

(** [leb e n]: the bytes e are a LEB128 encoding, not necessarily the shortest, of n. *)
Inductive leb : bytes -> N -> Prop :=
| leb_last : forall b, b < 128 -> leb [b] b
| leb_more : forall b e n, 128 <= b < 256 -> leb e n -> leb (b :: e) (b - 128 + 128 * n).
(** The u32 of the specification. *)
Definition u32_enc (e : bytes) (n : N) : Prop := leb e n /\ n < 2^32 /\ (length e <= 5)%nat.

(** UTF-8: encodings of Unicode scalar values. *)
Definition scalar (c : N) : Prop := c < 0xD800 \/ 0xE000 <= c < 0x110000.
Definition utf8_char (c : N) : bytes :=
  if c <? 0x80 then [c]
  else if c <? 0x800 then [0xC0 + c / 64; 0x80 + c mod 64]
  else if c <? 0x10000 then [0xE0 + c / 4096; 0x80 + c / 64 mod 64; 0x80 + c mod 64]
  else [0xF0 + c / 262144; 0x80 + c / 4096 mod 64; 0x80 + c / 64 mod 64; 0x80 + c mod 64].
Definition utf8 (s : bytes) : Prop := exists cs, Forall scalar cs /\ s = flat_map utf8_char cs.

(** Sections: custom ones with a name and contents, others. *)
Inductive section := Custom (name data : bytes) | Other (id : N) (content : bytes).
Inductive content_of : section -> N -> bytes -> Prop :=
| content_custom : forall name data e, u32_enc e (len name) -> utf8 name -> content_of (Custom name data) 0 (e ++ name ++ data)
| content_other : forall id content, id <> 0 -> content_of (Other id content) id content.
Inductive sections_of : bytes -> list section -> Prop :=
| sections_nil : sections_of [] []
| sections_cons : forall s id content e rest ss, content_of s id content -> u32_enc e (len content) -> sections_of rest ss ->
    sections_of (id :: e ++ content ++ rest) (s :: ss).
Definition module_of (data : bytes) (ss : list section) : Prop :=
  exists rest, data = [0x00; 0x61; 0x73; 0x6D] ++ [0x01; 0x00; 0x00; 0x00] ++ rest /\ sections_of rest ss.

(** The contents of the last custom section of a name. *)
Definition last_of (name : bytes) (ss : list section) : option bytes :=
  fold_left (fun acc s => match s with Custom n d => if list_eq_dec N.eq_dec n name then Some d else acc | Other _ _ => acc end) ss None.
(** The module ends with an empty custom section that is asked for. *)
Definition ends_empty (names : list bytes) (ss : list section) : Prop := exists ss' n, ss = ss' ++ [Custom n []] /\ In n names.
