(** What MessagePack bytes mean, written without reference to the Go code: the concrete syntax trees of the
    MessagePack format and the bytes of each.  From the model only the types of Go values are used
    ([gtime], [scal], [kind], [prim], [gov], [dv]), never its functions. *)
From Coq Require Import List NArith ZArith Bool Permutation.
From Verif Require Import Base MsgpackModel.
Import ListNotations.
Open Scope N_scope.

(** The ten integer formats. *)
Inductive int_fmt := FixPos | FixNeg | Int8 | Int16 | Int32 | Int64 | Uint8 | Uint16 | Uint32 | Uint64.

(** The numbers a format can carry. *)
Definition int_range (f : int_fmt) (z : Z) : Prop :=
  match f with
  | FixPos => (0 <= z < 128)%Z
  | FixNeg => (-32 <= z < 0)%Z
  | Int8 => (-128 <= z < 128)%Z
  | Int16 => (-2^15 <= z < 2^15)%Z
  | Int32 => (-2^31 <= z < 2^31)%Z
  | Int64 => (-2^63 <= z < 2^63)%Z
  | Uint8 => (0 <= z < 2^8)%Z
  | Uint16 => (0 <= z < 2^16)%Z
  | Uint32 => (0 <= z < 2^32)%Z
  | Uint64 => (0 <= z < 2^64)%Z
  end.

Definition int_tag (f : int_fmt) : bytes :=
  match f with
  | FixPos | FixNeg => []
  | Uint8 => [0xcc] | Uint16 => [0xcd] | Uint32 => [0xce] | Uint64 => [0xcf]
  | Int8 => [0xd0] | Int16 => [0xd1] | Int32 => [0xd2] | Int64 => [0xd3]
  end.

(** Bytes after the tag. *)
Definition int_width (f : int_fmt) : nat :=
  match f with
  | FixPos | FixNeg | Int8 | Uint8 => 1
  | Int16 | Uint16 => 2
  | Int32 | Uint32 => 4
  | Int64 | Uint64 => 8
  end.

(** The number, modulo 2^bits, most significant byte first, after the tag. *)
Definition int_bytes (f : int_fmt) (z : Z) : bytes :=
  int_tag f ++ be (int_width f) (Z.to_N (z mod 256 ^ Z.of_nat (int_width f))).

(** Formats a signed reader takes and a signed writer may use. *)
Definition signed_fmt (f : int_fmt) : Prop :=
  match f with FixPos | FixNeg | Int8 | Int16 | Int32 | Int64 => True | _ => False end.
(** Formats an unsigned writer may use. *)
Definition unsigned_fmt (f : int_fmt) : Prop :=
  match f with FixPos | Uint8 | Uint16 | Uint32 | Uint64 => True | _ => False end.

(** Ways to announce a length: in the tag byte, or in 1, 2 or 4 bytes after it. *)
Inductive len_fmt := InTag | Len8 | Len16 | Len32.

Definition len_limit (small : N) (f : len_fmt) : N :=
  match f with InTag => small | Len8 => 2^8 | Len16 => 2^16 | Len32 => 2^32 end.

Definition str_head (f : len_fmt) (n : N) : bytes :=
  match f with
  | InTag => [0xa0 + n]
  | Len8 => 0xd9 :: be 1 n
  | Len16 => 0xda :: be 2 n
  | Len32 => 0xdb :: be 4 n
  end.
Definition bin_head (f : len_fmt) (n : N) : bytes :=
  match f with
  | InTag => []
  | Len8 => 0xc4 :: be 1 n
  | Len16 => 0xc5 :: be 2 n
  | Len32 => 0xc6 :: be 4 n
  end.
Definition arr_head (f : len_fmt) (n : N) : bytes :=
  match f with
  | InTag => [0x90 + n]
  | Len8 => []
  | Len16 => 0xdc :: be 2 n
  | Len32 => 0xdd :: be 4 n
  end.
Definition map_head (f : len_fmt) (n : N) : bytes :=
  match f with
  | InTag => [0x80 + n]
  | Len8 => []
  | Len16 => 0xde :: be 2 n
  | Len32 => 0xdf :: be 4 n
  end.
(** Extension data: of exactly 1, 2, 4, 8 or 16 bytes in the tag, or with a length. *)
Definition ext_head (f : len_fmt) (n : N) : bytes :=
  match f with
  | InTag => [match n with 1 => 0xd4 | 2 => 0xd5 | 4 => 0xd6 | 8 => 0xd7 | _ => 0xd8 end]
  | Len8 => 0xc7 :: be 1 n
  | Len16 => 0xc8 :: be 2 n
  | Len32 => 0xc9 :: be 4 n
  end.

(** A MessagePack value together with the format chosen for every part. *)
Inductive mv :=
| MNil
| MBool (b : bool)
| MInt (f : int_fmt) (z : Z)
| MF32 (bits : N)
| MF64 (bits : N)
| MStr (f : len_fmt) (s : bytes)
| MBin (f : len_fmt) (s : bytes)
| MArr (f : len_fmt) (l : list mv)
| MMap (f : len_fmt) (l : list (mv * mv))
| MExt (f : len_fmt) (id : N) (data : bytes).

Fixpoint mv_bytes (v : mv) : bytes :=
  match v with
  | MNil => [0xc0]
  | MBool b => [if b then 0xc3 else 0xc2]
  | MInt f z => int_bytes f z
  | MF32 b => 0xca :: be 4 b
  | MF64 b => 0xcb :: be 8 b
  | MStr f s => str_head f (len s) ++ s
  | MBin f s => bin_head f (len s) ++ s
  | MArr f l => arr_head f (len l) ++ flat_map mv_bytes l
  | MMap f l => map_head f (len l) ++ flat_map (fun kv => mv_bytes (fst kv) ++ mv_bytes (snd kv)) l
  | MExt f id d => ext_head f (len d) ++ [id] ++ d
  end.

(** Every element satisfies [P]. *)
Definition all {A} (P : A -> Prop) : list A -> Prop :=
  fix all l := match l with [] => True | x :: l' => P x /\ all l' end.

(** The parts fit the formats chosen for them. *)
Fixpoint mv_ok (v : mv) : Prop :=
  match v with
  | MNil | MBool _ => True
  | MInt f z => int_range f z
  | MF32 b => b < 2^32
  | MF64 b => b < 2^64
  | MStr f s => len s < len_limit 32 f /\ wf s
  | MBin f s => f <> InTag /\ len s < len_limit 0 f /\ wf s
  | MArr f l => f <> Len8 /\ len l < len_limit 16 f /\
      all mv_ok l
  | MMap f l => f <> Len8 /\ len l < len_limit 16 f /\
      all (fun kv => mv_ok (fst kv) /\ mv_ok (snd kv)) l
  | MExt f id d => id < 256 /\ wf d /\
      match f with InTag => In (len d) [1; 2; 4; 8; 16] | _ => len d < len_limit 0 f end
  end.

(** Shortest form of a length announcement. *)
Definition short_len (small : N) (has8 : bool) (n : N) : len_fmt :=
  if n <? small then InTag
  else if has8 && (n <? 2^8) then Len8
  else if n <? 2^16 then Len16 else Len32.

(** Shortest of the signed formats / of the unsigned formats for a number. *)
Definition short_signed (z : Z) : int_fmt :=
  if (z <? -2^31)%Z then Int64
  else if (z <? -2^15)%Z then Int32
  else if (z <? -128)%Z then Int16
  else if (z <? -32)%Z then Int8
  else if (z <? 0)%Z then FixNeg
  else if (z <? 128)%Z then FixPos
  else if (z <? 2^15)%Z then Int16
  else if (z <? 2^31)%Z then Int32
  else Int64.
Definition short_unsigned (n : N) : int_fmt :=
  if n <? 128 then FixPos
  else if n <? 2^8 then Uint8
  else if n <? 2^16 then Uint16
  else if n <? 2^32 then Uint32
  else Uint64.

(** The timestamp extension: 32, 64 or 96 bits of data under extension type -1. *)
Definition time_data (t : gtime) : bytes :=
  let s := t_sec t in
  let n := t_nsec t in
  if (0 <=? s)%Z && (s <? 2^32)%Z && (n =? 0) then be 4 (Z.to_N s)
  else if (0 <=? s)%Z && (s <? 2^34)%Z then be 8 (n * 2^34 + Z.to_N s)
  else be 4 n ++ be 8 (Z.to_N (s mod 2^64)).

(** A Go time: any int64 second count, nanoseconds below one second. *)
Definition time_ok (t : gtime) : Prop := (-2^63 <= t_sec t < 2^63)%Z /\ t_nsec t < 1000000000.

(** The MessagePack value a single-value call stands for. *)
Definition scal_mv (s : scal) : mv :=
  match s with
  | SBool b => MBool b
  | SInt z | SI8 z | SI16 z | SI32 z | SI64 z => MInt (short_signed z) z
  | SUint n | SU8 n | SU16 n | SU32 n | SU64 n => MInt (short_unsigned n) (Z.of_N n)
  | SF32 b => MF32 b
  | SF64 b => MF64 b
  | SStr s => MStr (short_len 32 true (len s)) s
  | SBytes s => MBin (short_len 0 true (len s)) s
  | STime t => MExt (if len (time_data t) =? 12 then Len8 else InTag) 255 (time_data t)
  end.

(** The argument is a value of its Go type; strings shorter than 4 GiB. *)
Definition scal_ok (s : scal) : Prop :=
  match s with
  | SBool _ => True
  | SI8 z => (-2^7 <= z < 2^7)%Z
  | SI16 z => (-2^15 <= z < 2^15)%Z
  | SI32 z => (-2^31 <= z < 2^31)%Z
  | SInt z | SI64 z => (-2^63 <= z < 2^63)%Z
  | SU8 n => n < 2^8
  | SU16 n => n < 2^16
  | SU32 n => n < 2^32
  | SUint n | SU64 n => n < 2^64
  | SF32 b => b < 2^32
  | SF64 b => b < 2^64
  | SStr s | SBytes s => len s < 2^32 /\ wf s
  | STime t => time_ok t
  end.

(** The bytes a call other than WriteAny stands for. *)
Definition prim_bytes (p : prim) : bytes :=
  match p with
  | PNil | POpt None => mv_bytes MNil
  | PVal s | POpt (Some s) => mv_bytes (scal_mv s)
  | PArr n => arr_head (short_len 16 false n) n
  | PMap n => map_head (short_len 16 false n) n
  end.
Definition prim_ok (p : prim) : Prop :=
  match p with
  | PNil | POpt None => True
  | PVal s | POpt (Some s) => scal_ok s
  | PArr n | PMap n => n < 2^32
  end.

Definition kind_of (s : scal) : kind :=
  match s with
  | SBool _ => KBool | SInt _ => KInt | SI8 _ => KI8 | SI16 _ => KI16 | SI32 _ => KI32 | SI64 _ => KI64
  | SUint _ => KUint | SU8 _ => KU8 | SU16 _ => KU16 | SU32 _ => KU32 | SU64 _ => KU64
  | SF32 _ => KF32 | SF64 _ => KF64 | SStr _ => KStr | STime _ => KTime | SBytes _ => KBytes
  end.
(** Element types of slices, key types of maps, that the documentation of WriteAny lists. *)
Definition slice_elem (k : kind) : bool :=
  match k with KU8 | KF32 | KF64 | KTime | KBytes => false | _ => true end.
Definition map_key (k : kind) : bool :=
  match k with KBool | KF32 | KF64 | KTime | KBytes => false | _ => true end.

(** The bytes WriteAny is to produce for a dynamic value, in the given order of map entries.  Two deviations
    from MessagePack are part of this description because they are what the code is found to do: nil is
    written twice, and a time (or a slice of times) not at all. *)
Fixpoint any_bytes (v : gov) : bytes :=
  let arr n := arr_head (short_len 16 false n) n in
  let map n := map_head (short_len 16 false n) n in
  match v with
  | GNil => mv_bytes MNil ++ mv_bytes MNil
  | GVal (STime _) => []
  | GVal s => mv_bytes (scal_mv s)
  | GSlice l => arr (len l) ++ flat_map any_bytes l
  | GTSlice k l => if slice_elem k then arr (len l) ++ flat_map (fun s => mv_bytes (scal_mv s)) l else []
  | GMapSS l =>
    map (len l) ++ flat_map (fun kv => mv_bytes (scal_mv (SStr (fst kv))) ++ mv_bytes (scal_mv (SStr (snd kv)))) l
  | GTMap k l =>
    if map_key k
    then map (len l) ++ flat_map (fun kv => mv_bytes (scal_mv (fst kv)) ++ any_bytes (snd kv)) l
    else []
  | GMapAny l => map (len l) ++ flat_map (fun kv => any_bytes (fst kv) ++ any_bytes (snd kv)) l
  | GCodec l => flat_map (fun c => match c with inl p => prim_bytes p | inr v => any_bytes v end) l
  | GOther => []
  end.

Definition calls_bytes (l : list (prim + gov)) : bytes :=
  flat_map (fun c => match c with inl p => prim_bytes p | inr v => any_bytes v end) l.

(** Values are of their Go types; no slice, map or string has 2^32 or more elements. *)
Fixpoint any_ok (v : gov) : Prop :=
  match v with
  | GNil | GOther => True
  | GVal s => scal_ok s
  | GSlice l => len l < 2^32 /\ all any_ok l
  | GTSlice k l => len l < 2^32 /\ all (fun s => scal_ok s /\ kind_of s = k) l
  | GMapSS l => len l < 2^32 /\ all (fun kv => scal_ok (SStr (fst kv)) /\ scal_ok (SStr (snd kv))) l
  | GTMap k l => len l < 2^32 /\ all (fun kv => (scal_ok (fst kv) /\ kind_of (fst kv) = k) /\ any_ok (snd kv)) l
  | GMapAny l => len l < 2^32 /\ all (fun kv => any_ok (fst kv) /\ any_ok (snd kv)) l
  | GCodec l => all (fun c => match c with inl p => prim_ok p | inr v => any_ok v end) l
  end.
Definition calls_ok (l : list (prim + gov)) : Prop :=
  all (fun c => match c with inl p => prim_ok p | inr v => any_ok v end) l.

Definition sum (l : list N) : N := fold_right N.add 0 l.

(** The bytes by which the sizing pass is known to exceed the encoding pass: one for every byte string of
    exactly 255 bytes, and the size of every time inside a dynamic value. *)
Definition scal_excess (s : scal) : N :=
  match s with SBytes b => if len b =? 255 then 1 else 0 | _ => 0 end.
Definition prim_excess (p : prim) : N :=
  match p with PVal s | POpt (Some s) => scal_excess s | _ => 0 end.
Fixpoint any_excess (v : gov) : N :=
  match v with
  | GVal (STime t) => len (mv_bytes (scal_mv (STime t)))
  | GVal s => scal_excess s
  | GSlice l => sum (List.map any_excess l)
  | GTSlice KTime l =>
    len (arr_head (short_len 16 false (len l)) (len l)) + sum (List.map (fun s => len (mv_bytes (scal_mv s))) l)
  | GTMap k l => if map_key k then sum (List.map (fun kv => any_excess (snd kv)) l) else 0
  | GMapAny l => sum (List.map (fun kv => any_excess (fst kv) + any_excess (snd kv)) l)
  | GCodec l => sum (List.map (fun c => match c with inl p => prim_excess p | inr v => any_excess v end) l)
  | _ => 0
  end.
Definition calls_excess (l : list (prim + gov)) : N :=
  sum (List.map (fun c => match c with inl p => prim_excess p | inr v => any_excess v end) l).

(** The same Go value visited in another order: maps may list their entries differently. *)
Inductive same_any : gov -> gov -> Prop :=
| same_refl : forall v, same_any v v
| same_slice : forall l l', Forall2 same_any l l' -> same_any (GSlice l) (GSlice l')
| same_mapss : forall l l', Permutation l l' -> same_any (GMapSS l) (GMapSS l')
| same_tmap : forall k l m l', Forall2 (fun a b => fst a = fst b /\ same_any (snd a) (snd b)) l m ->
    Permutation m l' -> same_any (GTMap k l) (GTMap k l')
| same_mapany : forall l m l', Forall2 (fun a b => same_any (fst a) (fst b) /\ same_any (snd a) (snd b)) l m ->
    Permutation m l' -> same_any (GMapAny l) (GMapAny l')
| same_codec : forall l l', Forall2 same_call l l' -> same_any (GCodec l) (GCodec l')
with same_call : prim + gov -> prim + gov -> Prop :=
| same_plain : forall p, same_call (inl p) (inl p)
| same_dyn : forall v w, same_any v w -> same_call (inr v) (inr w).
Definition same_calls (l l' : list (prim + gov)) : Prop := Forall2 same_call l l'.

(** Values without the two kinds of extensions Skip does not know (one data byte in the tag; announced
    length) and without maps of 2^31 or more entries. *)
Fixpoint skippable (v : mv) : Prop :=
  match v with
  | MArr _ l => all skippable l
  | MMap _ l => len l < 2^31 /\ all (fun kv => skippable (fst kv) /\ skippable (snd kv)) l
  | MExt f _ d => f = InTag /\ len d <> 1
  | _ => True
  end.

(** The Go value ReadAny is to return for a MessagePack value: the dynamic type follows the format, integers in
    one byte are int64, maps are map[any]any. *)
Fixpoint mv_dv (v : mv) : dv :=
  match v with
  | MNil => DNil
  | MBool b => DBool b
  | MInt f z =>
    match f with
    | FixPos | FixNeg | Int64 => DI64 z
    | Int8 => DI8 z | Int16 => DI16 z | Int32 => DI32 z
    | Uint8 => DU8 (Z.to_N z) | Uint16 => DU16 (Z.to_N z) | Uint32 => DU32 (Z.to_N z) | Uint64 => DU64 (Z.to_N z)
    end
  | MF32 b => DF32 b
  | MF64 b => DF64 b
  | MStr _ s => DStr s
  | MBin _ s => DBytes s
  | MArr _ l => DArr (map mv_dv l)
  | MMap _ l => DMap (map (fun kv => (mv_dv (fst kv), mv_dv (snd kv))) l)
  | MExt _ _ _ => DNil
  end.

(** Keys a Go map can hold side by side: hashable, and pairwise different under Go's [==] ([key_eq]). *)
Definition keys_ok (l : list dv) : Prop :=
  Forall (fun k => match k with DBytes _ | DArr _ | DMap _ => False | _ => True end) l /\
  ForallOrdPairs (fun a b => key_eq a b = false) l.

(** Values without extensions whose maps have keys as above. *)
Fixpoint readable (v : mv) : Prop :=
  match v with
  | MArr _ l => all readable l
  | MMap _ l => keys_ok (map (fun kv => mv_dv (fst kv)) l) /\ all (fun kv => readable (fst kv) /\ readable (snd kv)) l
  | MExt _ _ _ => False
  | _ => True
  end.

(** What a key of a map[any]any denotes: a truth value, a number or a string (floating-point keys are left out). *)
Inductive keyval := KeyBool (b : bool) | KeyInt (z : Z) | KeyStr (s : bytes).
Definition key_val (v : gov) : option keyval :=
  match v with
  | GVal (SBool b) => Some (KeyBool b)
  | GVal (SInt z) | GVal (SI8 z) | GVal (SI16 z) | GVal (SI32 z) | GVal (SI64 z) => Some (KeyInt z)
  | GVal (SUint n) | GVal (SU8 n) | GVal (SU16 n) | GVal (SU32 n) | GVal (SU64 n) => Some (KeyInt (Z.of_N n))
  | GVal (SStr s) => Some (KeyStr s)
  | _ => None
  end.

(** Dynamic values that stand for one MessagePack value: no nil and no time anywhere, only listed types, and
    map[any]any keys that stay different once their Go type is forgotten. *)
Fixpoint clean (v : gov) : Prop :=
  match v with
  | GNil | GOther | GCodec _ | GVal (STime _) => False
  | GVal _ => True
  | GSlice l => all clean l
  | GTSlice k _ => slice_elem k = true
  | GMapSS l => NoDup (map fst l)
  | GTMap k l => map_key k = true /\ NoDup (map fst l) /\ all (fun kv => clean (snd kv)) l
  | GMapAny l => Forall (fun kv => key_val (fst kv) <> None) l /\ NoDup (map (fun kv => key_val (fst kv)) l) /\
      all (fun kv => clean (snd kv)) l
  end.

(** Element by element. *)
Definition all2 {A B} (R : A -> B -> Prop) : list A -> list B -> Prop :=
  fix all2 l l' := match l, l' with
                   | [], [] => True
                   | x :: l, y :: l' => R x y /\ all2 l l'
                   | _, _ => False
                   end.

(** The number a decoded integer denotes, whatever its Go type. *)
Definition dv_int (w : dv) : option Z :=
  match w with
  | DI8 z | DI16 z | DI32 z | DI64 z => Some z
  | DU8 n | DU16 n | DU32 n | DU64 n => Some (Z.of_N n)
  | _ => None
  end.
Definition scal_equal (s : scal) (w : dv) : Prop :=
  match s with
  | SBool b => w = DBool b
  | SInt z | SI8 z | SI16 z | SI32 z | SI64 z => dv_int w = Some z
  | SUint n | SU8 n | SU16 n | SU32 n | SU64 n => dv_int w = Some (Z.of_N n)
  | SF32 b => w = DF32 b
  | SF64 b => w = DF64 b
  | SStr s => w = DStr s
  | SBytes s => w = DBytes s
  | STime _ => False
  end.
(** A decoded value equals a written one: same structure, same numbers, same strings. *)
Fixpoint any_equal (v : gov) (w : dv) : Prop :=
  match v, w with
  | GVal s, _ => scal_equal s w
  | GSlice l, DArr m => all2 any_equal l m
  | GTSlice _ l, DArr m => all2 scal_equal l m
  | GMapSS l, DMap m => all2 (fun kv e => fst e = DStr (fst kv) /\ snd e = DStr (snd kv)) l m
  | GTMap _ l, DMap m => all2 (fun kv e => scal_equal (fst kv) (fst e) /\ any_equal (snd kv) (snd e)) l m
  | GMapAny l, DMap m => all2 (fun kv e => any_equal (fst kv) (fst e) /\ any_equal (snd kv) (snd e)) l m
  | GNil, DNil => True
  | _, _ => False
  end.

(** * Hostile input *)

(** The reads client code can make, in any order; the value is not needed here, only whether there was one. *)
Inductive rop :=
| OIsNextNil | OBool | OI8 | OI16 | OI32 | OI64 | OU8 | OU16 | OU32 | OU64 | OF32 | OF64 | OStr | OBin | OTime
| OArr | OMap | OSkip | OAny
| ONillable (o : rop).
Definition is_any : rop -> bool := fix f o := match o with OAny => true | ONillable o => f o | _ => false end.
Definition is_skip : rop -> bool := fix f o := match o with OSkip => true | ONillable o => f o | _ => false end.

(** Reads that take no announced number of bytes. *)
Definition fixed_size : rop -> bool := fix f o :=
  match o with OStr | OBin | OTime | OSkip | OAny => false | ONillable o => f o | _ => true end.

(** No 4-byte window of the input, read as a big-endian length, reaches 2^32 when added to the input's length. *)
Definition tame (buf : bytes) : Prop :=
  len buf < 2^31 /\
  forall pre w post, buf = pre ++ w ++ post -> length w = 4%nat -> unbe w + len buf < 2^32.

(** Bytes that announce a map. *)
Definition map_tag (b : N) : Prop := 0x80 <= b < 0x90 \/ b = 0xde \/ b = 0xdf.

(** * Reading in the middle of a buffer *)

(** Wherever the bytes [bs] stand in a buffer below 4 GiB, and whatever follows, reading returns [a] and leaves
    the reader right behind them. *)
Definition consumes {A} (m : M A) (bs : bytes) (a : A) : Prop := forall pre rest,
  len pre + len (bs ++ rest) < 2^32 ->
  m (mkDR (pre ++ bs ++ rest) (len pre) false) = Ret (a, mkDR (pre ++ bs ++ rest) (len pre + len bs) false).

(** Wherever there is room for [bs], writing replaces the bytes that stood there, and only those. *)
Definition produces (w : W) (bs : bytes) : Prop := forall pre old post, length old = length bs ->
  len (pre ++ old ++ post) < 2^32 ->
  w (mkDR (pre ++ old ++ post) (len pre) false) = Ret (mkDR (pre ++ bs ++ post) (len pre + len bs) false).

(** * Records *)

(** The encodings of a single value a peer may choose: any format that holds it, integers for signed fields in
    the signed formats only. *)
Definition alt_mv (s : scal) (v : mv) : Prop :=
  match s with
  | SInt z | SI8 z | SI16 z | SI32 z | SI64 z => exists f, signed_fmt f /\ v = MInt f z
  | SUint n | SU8 n | SU16 n | SU32 n | SU64 n => exists f, v = MInt f (Z.of_N n)
  | SStr x => exists f, v = MStr f x
  | SBytes x => exists f, v = MBin f x
  | _ => v = scal_mv s
  end.
