(** Specification of what the readers of strings, byte arrays and sizes accept, and of what ReadAny makes of any
    value, with repeated keys, keys Go cannot hash, and extensions. *)
From Coq Require Import List NArith Bool Permutation.
From Verif Require Import Base MsgpackModel MsgpackSpec.
Import ListNotations.
Open Scope N_scope.

(** ** Heads *)

(** The array heads of n elements, and the map heads. *)
Definition array_head (hd : bytes) (n : N) : Prop :=
  exists f, f <> Len8 /\ n < len_limit 16 f /\ hd = arr_head f n.
Definition mapping_head (hd : bytes) (n : N) : Prop :=
  exists f, f <> Len8 /\ n < len_limit 16 f /\ hd = map_head f n.
Definition string_head (hd : bytes) (n : N) : Prop :=
  exists f, n < len_limit 32 f /\ hd = str_head f n.
Definition binary_head (hd : bytes) (n : N) : Prop :=
  exists f, f <> InTag /\ n < len_limit 0 f /\ hd = bin_head f n.
Definition nil_head (hd : bytes) (n : N) : Prop := hd = [0xc0] /\ n = 0.

(** What each reader takes as the head of n elements or bytes. *)
Definition array_size_head (hd : bytes) (n : N) : Prop := array_head hd n \/ nil_head hd n.
Definition map_size_head (hd : bytes) (n : N) : Prop := mapping_head hd n \/ nil_head hd n.
(** Array heads are taken for string heads. *)
Definition text_head (hd : bytes) (n : N) : Prop := string_head hd n \/ array_head hd n.
(** Of the array heads only those of one byte are taken for byte arrays. *)
Definition blob_head (hd : bytes) (n : N) : Prop :=
  binary_head hd n \/ nil_head hd n \/ (n < 16 /\ hd = arr_head InTag n).

(** ** Any value *)

(** How reading a value in document order ends: well, at an extension, or at a key Go cannot hash (noticed only
    after the value belonging to it). *)
Inductive verdict := Good | Extension | BadKey.
Definition andthen (a b : verdict) : verdict := match a with Good => b | _ => a end.
Definition firstof {A} (f : A -> verdict) (l : list A) : verdict := fold_right (fun x r => andthen (f x) r) Good l.
Definition key_verdict (k : mv) : verdict :=
  match k with MBin _ _ | MArr _ _ | MMap _ _ => BadKey | _ => Good end.
Fixpoint judge (v : mv) : verdict :=
  match v with
  | MArr _ l => firstof judge l
  | MMap _ l => firstof (fun kv => andthen (judge (fst kv)) (andthen (judge (snd kv)) (key_verdict (fst kv)))) l
  | MExt _ _ _ => Extension
  | _ => Good
  end.

(** The entry found under a key, and the entries whose key is unequal to itself (NaN). *)
Definition entry (k : dv) (m : list (dv * dv)) : option (dv * dv) := find (fun e => key_eq (fst e) k) m.
Definition unfindable (m : list (dv * dv)) : list (dv * dv) := filter (fun e => negb (key_eq (fst e) (fst e))) m.

(** [m] is the Go map after assigning the pairs [ps] in order: keys are pairwise unequal, under each key stands
    the last pair assigned to it, and pairs with NaN keys are all kept. *)
Definition assigned (ps m : list (dv * dv)) : Prop :=
  ForallOrdPairs (fun a b => key_eq (fst a) (fst b) = false) m /\
  (forall k, entry k m = entry k (rev ps)) /\
  Permutation (unfindable m) (unfindable ps).

Inductive stands_for : mv -> dv -> Prop :=
| sf_nil : stands_for MNil (mv_dv MNil)
| sf_bool : forall b, stands_for (MBool b) (mv_dv (MBool b))
| sf_int : forall f z, stands_for (MInt f z) (mv_dv (MInt f z))
| sf_f32 : forall b, stands_for (MF32 b) (mv_dv (MF32 b))
| sf_f64 : forall b, stands_for (MF64 b) (mv_dv (MF64 b))
| sf_str : forall f s, stands_for (MStr f s) (mv_dv (MStr f s))
| sf_bin : forall f s, stands_for (MBin f s) (mv_dv (MBin f s))
| sf_arr : forall f l ws, Forall2 stands_for l ws -> stands_for (MArr f l) (DArr ws)
| sf_map : forall f l ps m, Forall2 (fun kv p => stands_for (fst kv) (fst p) /\ stands_for (snd kv) (snd p)) l ps ->
    assigned ps m -> stands_for (MMap f l) (DMap m).
