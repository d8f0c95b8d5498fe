(** Properties C51 and C52: what the MessagePack readers accept, and what ReadAny makes of any value. *)
From Coq Require Import List NArith ZArith Lia Bool Permutation.
From Verif Require Import Base BaseLemmas OperationsModel MsgpackModel MsgpackSpec MsgpackReadSpec MsgpackAcceptProofs.
Import ListNotations.
Open Scope N_scope.

(** The result of a read without the reader. *)
Definition result {A} (o : outcome (rerr * dr) (A * dr)) : outcome rerr A :=
  match o with Ret (a, _) => Ret a | Fail (e, _) => Fail e | Panic => Panic end.

(** C51. The size readers return n exactly when a head of n elements stands at the reader's position, or nil (as 0),
    and stand behind it then. *)
Theorem C51_sizes : forall pre tail n d', wf tail -> len pre + len tail < 2^31 ->
  let d := mkDR (pre ++ tail) (len pre) false in
  let here (H : bytes -> N -> Prop) :=
    exists hd rest, H hd n /\ tail = hd ++ rest /\ d' = mkDR (pre ++ tail) (len pre + len hd) false in
  (ReadArraySize d = Ret (n, d') <-> here array_size_head) /\
  (ReadMapSize d = Ret (n, d') <-> here map_size_head).
Proof.
  intros. split; [apply head_iff; [exact arr_head_inv|exact arr_head_reads|assumption..]|
                  apply head_iff; [exact map_head_inv|exact map_head_reads|assumption..]].
Qed.
Print Assumptions C51_sizes.
(** Strings and byte arrays: a head of their length, the bytes themselves. *)
Theorem C51_bytes : forall pre tail s d', wf tail -> len pre + len tail < 2^31 ->
  let d := mkDR (pre ++ tail) (len pre) false in
  let here (H : bytes -> N -> Prop) :=
    exists hd rest, H hd (len s) /\ tail = hd ++ s ++ rest /\
      d' = mkDR (pre ++ tail) (len pre + len hd + len s) false in
  (ReadString d = Ret (s, d') <-> here text_head) /\
  (ReadByteArray d = Ret (s, d') <-> here blob_head).
Proof.
  intros. split; [apply bytes_iff; [exact str_head_inv|exact str_head_reads|exact text_small|assumption..]|
                  apply bytes_iff; [exact bin_head_inv|exact bin_head_reads|exact blob_small|assumption..]].
Qed.
Print Assumptions C51_bytes.
(** Booleans and floats; a float32 may also be read from a float64, rounded. *)
Theorem C51_bool : forall pre tail b d', wf tail -> len pre + len tail < 2^31 ->
  (ReadBool (mkDR (pre ++ tail) (len pre) false) = Ret (b, d') <->
   exists rest, tail = mv_bytes (MBool b) ++ rest /\ d' = mkDR (pre ++ tail) (len pre + 1) false).
Proof. exact bool_iff. Qed.
Print Assumptions C51_bool.
Theorem C51_float64 : forall pre tail v d', wf tail -> len pre + len tail < 2^31 ->
  (ReadFloat64 (mkDR (pre ++ tail) (len pre) false) = Ret (v, d') <->
   exists rest, v < 2^64 /\ tail = mv_bytes (MF64 v) ++ rest /\ d' = mkDR (pre ++ tail) (len pre + 9) false).
Proof. exact f64_iff. Qed.
Print Assumptions C51_float64.
Theorem C51_float32 : forall f64to32 pre tail v d', wf tail -> len pre + len tail < 2^31 ->
  (ReadFloat32 f64to32 (mkDR (pre ++ tail) (len pre) false) = Ret (v, d') <->
   (exists rest, v < 2^32 /\ tail = mv_bytes (MF32 v) ++ rest /\ d' = mkDR (pre ++ tail) (len pre + 5) false) \/
   (exists x rest, x < 2^64 /\ v = f64to32 x /\ tail = mv_bytes (MF64 x) ++ rest /\
      d' = mkDR (pre ++ tail) (len pre + 9) false)).
Proof. exact f32_iff. Qed.
Print Assumptions C51_float32.
(** "Only strings are read as strings" is false: the array [1, 2] is read as a string of two bytes; nor are only
    byte arrays read as byte arrays. *)
Theorem C51_refuted : mv_bytes (MArr InTag [MInt FixPos 1; MInt FixPos 2]) = [0x92; 1; 2] /\
  result (ReadString (new_dr [0x92; 1; 2])) = Ret [1; 2] /\
  result (ReadByteArray (new_dr [0x92; 1; 2])) = Ret [1; 2] /\
  result (ReadByteArray (new_dr [0xa2; 1; 2])) = Fail ReadErr.
Proof. vm_compute. repeat split. Qed.
Print Assumptions C51_refuted.
Example C51_ex : wf [0xd9; 2; 104; 105; 7] /\ string_head [0xd9; 2] 2 /\ array_head [0xdc; 0; 2] 2 /\ binary_head [0xc4; 2] 2 /\
  result (ReadString (mkDR ([1] ++ [0xd9; 2; 104; 105; 7]) 1 false)) = Ret [104; 105] /\
  result (ReadByteArray (new_dr [0xc4; 2; 104; 105])) = Ret [104; 105] /\
  result (ReadMapSize (new_dr [0xc0])) = Ret 0 /\ result (ReadMapSize (new_dr [0xde; 1; 0])) = Ret 256.
Proof.
  split; [apply wfb_wf; reflexivity|]. split; [exists Len8; split; reflexivity|].
  split; [exists Len16; repeat split; discriminate|]. split; [exists Len8; repeat split; discriminate|].
  vm_compute. repeat split.
Qed.

(** C52. ReadAny on the encoding of any value: in document order it stops with an error at the first extension and
    panics at the first key that is a byte string, an array or a map, whichever comes first; otherwise it returns
    the value, maps holding under each key the entry that came last, and stands behind it. *)
Theorem C52_any : forall v fuel, mv_ok v -> (length (mv_bytes v) <= fuel)%nat ->
  match judge v with
  | Good => exists w, stands_for v w /\ consumes (ReadAny fuel) (mv_bytes v) w
  | Extension => forall pre rest, len pre + len (mv_bytes v ++ rest) < 2^32 ->
      exists d, ReadAny fuel (mkDR (pre ++ mv_bytes v ++ rest) (len pre) false) = Fail (ReadErr, d)
  | BadKey => forall pre rest, len pre + len (mv_bytes v ++ rest) < 2^32 ->
      ReadAny fuel (mkDR (pre ++ mv_bytes v ++ rest) (len pre) false) = Panic
  end.
Proof. exact any_exact. Qed.
Print Assumptions C52_any.
(** The Go map so described is unique up to the order of its entries. *)
Theorem C52_map_unique : forall ps m m', assigned ps m -> assigned ps m' -> Permutation m m'.
Proof. exact assigned_unique. Qed.
Print Assumptions C52_map_unique.
(** {"a": 1, 2: nil, "a": 3}; an array as key; an extension before it. *)
Definition twice : mv := MMap InTag [(MStr InTag [97], MInt FixPos 1); (MInt FixPos 2, MNil); (MStr InTag [97], MInt FixPos 3)].
Definition bad_key : mv := MMap InTag [(MArr InTag [], MNil); (MExt InTag 5 [1], MNil)].
Definition ext_first : mv := MMap InTag [(MArr InTag [], MExt InTag 5 [1])].
Example C52_ex : mv_ok twice /\ judge twice = Good /\ assigned [(DStr [97], DI64 1); (DI64 2, DNil); (DStr [97], DI64 3)] [(DStr [97], DI64 3); (DI64 2, DNil)]
  /\ result (ReadAny 20 (new_dr (mv_bytes twice))) = Ret (DMap [(DStr [97], DI64 3); (DI64 2, DNil)])
  /\ mv_ok bad_key /\ judge bad_key = BadKey /\ ReadAny 20 (new_dr (mv_bytes bad_key)) = Panic
  /\ mv_ok ext_first /\ judge ext_first = Extension /\ result (ReadAny 20 (new_dr (mv_bytes ext_first))) = Fail ReadErr.
Proof.
  split; [cbn; repeat split; try (apply wfb_wf; reflexivity); try discriminate; lia|].
  split; [reflexivity|]. split; [exact (puts_assigned [(DStr [97], DI64 1); (DI64 2, DNil); (DStr [97], DI64 3)])|].
  split; [vm_compute; reflexivity|].
  split; [cbn; repeat split; try (apply wfb_wf; reflexivity); try discriminate; try lia; auto|].
  split; [reflexivity|]. split; [vm_compute; reflexivity|].
  split; [cbn; repeat split; try (apply wfb_wf; reflexivity); try discriminate; try lia; auto|].
  split; vm_compute; reflexivity.
Qed.
