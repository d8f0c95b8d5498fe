(** Model of the generator of record codecs, /repo/codegen/src/tinygo/msgpack_helpers.ts (msgpackRead, msgpackWrite), msgpack_constants.ts,
    msgpack_decoder_visitor.ts, msgpack_encoder_visitor.ts, and of the Go programs it writes.  Code only; no proofs.

    - Types are Apex types: primitive types by name, types, unions and enums by number, aliases of primitive types, lists and maps; [o] says that the
      item, value or field is optional.  Left out: aliases of other types, map keys that are not of a primitive type, streams.
    - An alias is imported ([imported]: the configuration gives its Go type with a parse function and a format method) or is declared with the
      primitive type as underlying type.
    - A program is the list of statements that msgpackRead writes for one field.  A loop with the lines before it (reading the size, make) is one
      statement; [if err != nil { return err }] is not shown: a failing statement ends the function.  Names of variables are kept, because loops
      declare variables again.
    - Of the Go compiler, the types of variables and right-hand sides are modelled ([typed]).  expandType, which writes Go types, and convertUnionToType,
      which makes every member of a union an optional field, belong to another project (deps/codegen/go.ts, utils.ts) and are taken from their use. *)
From Coq Require Import List NArith ZArith Bool.
From Verif Require Import Base OperationsModel MsgpackModel MsgpackSpec MsgpackClient.
Import ListNotations.
Open Scope N_scope.

Inductive pname := NID | NBool | NString | NDatetime | NI8 | NU8 | NI16 | NU16 | NI32 | NU32 | NI64 | NU64 | NF32 | NF64 | NBytes | NAny.
Inductive ty :=
| TyPrim (p : pname) | TyType (n : N) | TyUnion (n : N) | TyEnum (n : N) | TyAlias (n : N) (p : pname)
| TyList (o : bool) (t : ty) | TyMap (k : pname) (o : bool) (t : ty).

(** ** msgpack_constants.ts *)

(** Lines 35-105: the methods ReadX, ReadNillableX, WriteX, WriteNillableX, named by the type they are for. *)
Definition decodeFuncs (p : pname) : option kind :=
  match p with
  | NID => Some KStr | NBool => Some KBool | NString => Some KStr | NDatetime => Some KTime
  | NI8 => Some KI8 | NU8 => Some KU8 | NI16 => Some KI16 | NU16 => Some KU16 | NI32 => Some KI32 | NU32 => Some KU32 | NI64 => Some KI64 | NU64 => Some KU64
  | NF32 => Some KF32 | NF64 => Some KF64 | NBytes => Some KBytes | NAny => None
  end.
Definition decodeNillableFuncs (p : pname) : option kind :=
  match p with
  | NID => Some KStr | NBool => Some KBool | NString => Some KStr | NDatetime => Some KTime
  | NI8 => Some KI8 | NU8 => Some KU8 | NI16 => Some KI16 | NU16 => Some KU16 | NI32 => Some KI32 | NU32 => Some KU32 | NI64 => Some KI64 | NU64 => Some KU64
  | NF32 => Some KF32 | NF64 => Some KF64 | NBytes => Some KBytes | NAny => None
  end.
Definition encodeFuncs (p : pname) : option kind :=
  match p with
  | NID => Some KStr | NBool => Some KBool | NString => Some KStr | NDatetime => Some KTime
  | NI8 => Some KI8 | NU8 => Some KU8 | NI16 => Some KI16 | NU16 => Some KU16 | NI32 => Some KI32 | NU32 => Some KU32 | NI64 => Some KI64 | NU64 => Some KU64
  | NF32 => Some KF32 | NF64 => Some KF64 | NBytes => Some KBytes | NAny => None
  end.
Definition encodeNillableFuncs (p : pname) : option kind :=
  match p with
  | NID => Some KStr | NBool => Some KBool | NString => Some KStr | NDatetime => Some KTime
  | NI8 => Some KI8 | NU8 => Some KU8 | NI16 => Some KI16 | NU16 => Some KU16 | NI32 => Some KI32 | NU32 => Some KU32 | NI64 => Some KI64 | NU64 => Some KU64
  | NF32 => Some KF32 | NF64 => Some KF64 | NBytes => Some KBytes | NAny => None
  end.
(** Lines 107-140: the functions of package convert; [CMisspelt] is "convert.Numeric.Numerict8". *)
Inductive caster := CString | CBool | CNumeric | CBytes | CMisspelt.
Definition castFuncs (p : pname) : option caster :=
  match p with
  | NID | NString => Some CString | NBool => Some CBool | NDatetime | NAny => None | NU8 => Some CMisspelt | NBytes => Some CBytes | _ => Some CNumeric
  end.
Definition castNillableFuncs (p : pname) : option caster :=
  match p with
  | NID | NString => Some CString | NBool => Some CBool | NDatetime | NAny => None | NBytes => Some CBytes | _ => Some CNumeric
  end.

(** ** msgpackRead, msgpack_helpers.ts:55-287 *)

(** o.F, nonNilItem, key, value. *)
Inductive var := VField | VItem | VKey | VValue.
Definition declared (x : var) : bool := match x with VKey | VValue => true | _ => false end.
Definition var_eqb (x y : var) : bool := match x, y with VField, VField | VItem, VItem | VKey, VKey | VValue, VValue => true | _, _ => false end.

(** Right-hand sides: decoder.ReadX(), decoder.ReadNillableX(), msgpack.Decode[T](decoder), msgpack.DecodeNillable[T](decoder),
    convert.C[T](decoder.ReadX()), convert.NillableC[T](decoder.ReadNillableX()), convert.Parse(f)(...), convert.NillableParse(f)(...);
    [FWrong]: something undefined. *)
Inductive fn :=
| FRead (k : kind) | FNil (k : kind) | FDecode (n : N) | FDecodeNil (n : N)
| FCast (c : caster) (a : N) (k : kind) | FNilCast (c : caster) (a : N) (k : kind) | FParse (a : N) (k : kind) | FNilParse (a : N) (k : kind) | FWrong.
Inductive stmt :=
| SInto (x : var) (n : N)                          (* err = x.Decode(decoder) *)
| SSet (x : var) (f : fn)                          (* x, err = f, or := *)
| SList (x : var) (t : ty) (body : list stmt)      (* listSize, err := decoder.ReadArraySize(); x = make(t, 0, listSize); for listSize > 0 { ... } *)
| SMap (x : var) (t : ty) (body : list stmt)       (* mapSize, err := decoder.ReadMapSize(); x = make(t, mapSize); for mapSize > 0 { ... } *)
| SVar (o : bool) (t : ty)                         (* var nonNilItem T, :231-234 *)
| SAppend (x : var)                                (* x = append(x, nonNilItem) *)
| SIndex (x : var).                                (* x[key] = value *)

(** Lines 130-149; msgpack.Decode[T] of a primitive type that is in neither table does not compile. *)
Definition prim_read (p : pname) (o : bool) : fn :=
  match (if o then decodeNillableFuncs p else None), decodeFuncs p with
  | Some k, _ => FNil k
  | None, Some k => FRead k
  | None, None => FWrong
  end.

Section Alias.
Context (imported : N -> bool).

(** Lines 102-127. *)
Definition alias_read (a : N) (p : pname) (o : bool) : fn :=
  match (if o then decodeNillableFuncs p else decodeFuncs p) with
  | None => FWrong
  | Some k =>
    if imported a then (if o then FNilParse a k else FParse a k)
    else match (if o then castNillableFuncs p else castFuncs p) with
         | Some c => if o then FNilCast c a k else FCast c a k
         | None => FWrong
         end
  end.

(** The variable, the type and whether it stands under an Optional (:255-285; lists and maps do not look at it). *)
Fixpoint msgpackRead (x : var) (t : ty) (o : bool) : list stmt :=
  match t with
  | TyPrim p => [SSet x (prim_read p o)]
  (* lines 86-91, 130-149 *)
  | TyType n => if negb o && negb (declared x) then [SInto x n] else [SSet x (if o then FDecodeNil n else FDecode n)]
  | TyUnion n => [SSet x (if o then FDecodeNil n else FDecode n)]
  (* lines 150-158 *)
  | TyEnum n => [SSet x (if o then FNilCast CNumeric n KI32 else FCast CNumeric n KI32)]
  | TyAlias a p => [SSet x (alias_read a p o)]
  (* lines 159-212 *)
  | TyMap k o' u => [SMap x (TyMap k o' u) (SSet VKey (prim_read k false) :: msgpackRead VValue u o' ++ [SIndex x])]
  (* lines 213-254 *)
  | TyList o' u => [SList x (TyList o' u) (SVar o' u :: msgpackRead VItem u o' ++ [SAppend x])]
  end.
End Alias.

(** ** The Go compiler's view *)

(** Go types: of kind [k], named [n] (record, union, enum, alias), pointer, slice, map, any. *)
Inductive gty := GK (k : kind) | GN (n : N) | GP (g : gty) | GS (g : gty) | GM (k g : gty) | GAny.
Definition kind_eqb (a b : kind) : bool :=
  match a, b with
  | KBool, KBool | KInt, KInt | KI8, KI8 | KI16, KI16 | KI32, KI32 | KI64, KI64 | KUint, KUint | KU8, KU8 | KU16, KU16 | KU32, KU32 | KU64, KU64
  | KF32, KF32 | KF64, KF64 | KStr, KStr | KTime, KTime | KBytes, KBytes => true
  | _, _ => false
  end.
Fixpoint gty_eqb (a b : gty) : bool :=
  match a, b with
  | GK x, GK y => kind_eqb x y
  | GN x, GN y => x =? y
  | GP x, GP y | GS x, GS y => gty_eqb x y
  | GM k x, GM l y => gty_eqb k l && gty_eqb x y
  | GAny, GAny => true
  | _, _ => false
  end.

(** expandType: an optional value is a pointer, but for lists, maps and []byte. *)
Definition pointered (t : ty) : bool := match t with TyList _ _ | TyMap _ _ _ | TyPrim NBytes => false | _ => true end.
(** deps/codegen/go.ts, translations. *)
Definition goprim (p : pname) : gty :=
  match p with
  | NID | NString => GK KStr | NBool => GK KBool | NDatetime => GK KTime | NI8 => GK KI8 | NU8 => GK KU8 | NI16 => GK KI16 | NU16 => GK KU16
  | NI32 => GK KI32 | NU32 => GK KU32 | NI64 => GK KI64 | NU64 => GK KU64 | NF32 => GK KF32 | NF64 => GK KF64 | NBytes => GK KBytes | NAny => GAny
  end.
Fixpoint goty (t : ty) : gty :=
  match t with
  | TyPrim p => goprim p
  | TyType n | TyUnion n | TyEnum n | TyAlias n _ => GN n
  | TyList o u => GS (if o && pointered u then GP (goty u) else goty u)
  | TyMap k o u => GM (goprim k) (if o && pointered u then GP (goty u) else goty u)
  end.
Definition gotyo (o : bool) (t : ty) : gty := if o && pointered t then GP (goty t) else goty t.
(** msgpack_helpers.ts:231-234: a star before what expandType gives when told to leave out the star. *)
Definition item_ty (o : bool) (t : ty) : gty := if o then GP (goty t) else goty t.

(** convert.go: the types that the functions take. *)
Definition takes (c : caster) (k : kind) : bool :=
  match c, k with
  | CString, KStr | CBool, KBool | CBytes, KBytes => true
  | CNumeric, (KInt | KI8 | KI16 | KI32 | KI64 | KUint | KU8 | KU16 | KU32 | KU64 | KF32 | KF64) => true
  | _, _ => false
  end.
(** Result types; ReadNillableByteArray returns []byte, which convert.NillableParse does not take. *)
Definition fn_ty (f : fn) : option gty :=
  match f with
  | FRead k => Some (GK k)
  | FNil k => Some (if kind_eqb k KBytes then GK k else GP (GK k))
  | FDecode n => Some (GN n)
  | FDecodeNil n => Some (GP (GN n))
  | FCast c a k => if takes c k then Some (GN a) else None
  | FNilCast c a k => if takes c k then Some (if kind_eqb k KBytes then GN a else GP (GN a)) else None
  | FParse a k => Some (GN a)
  | FNilParse a k => if kind_eqb k KBytes then None else Some (GP (GN a))
  | FWrong => None
  end.

(** Variables in scope, the innermost first. *)
Definition scope (A : Type) := list (var * A).
Fixpoint look {A} (x : var) (c : scope A) : option A :=
  match c with [] => None | (y, a) :: c' => if var_eqb x y then Some a else look x c' end.
Fixpoint update {A} (x : var) (a : A) (c : scope A) : scope A :=
  match c with [] => [] | (y, b) :: c' => if var_eqb x y then (y, a) :: c' else (y, b) :: update x a c' end.
(** [x := a] or [x = a]. *)
Definition put {A} (x : var) (a : A) (c : scope A) : scope A := if declared x then (x, a) :: c else update x a c.

Definition assigns (x : var) (g : gty) (c : scope gty) : option (scope gty) :=
  if declared x then Some ((x, g) :: c)
  else match look x c with Some g' => if gty_eqb g' g then Some c else None | None => None end.
Definition comparable (g : gty) : bool := match g with GK KBytes | GAny => false | _ => true end.

Section Block.
Variable one : stmt -> scope gty -> option (scope gty).
Fixpoint block (l : list stmt) (c : scope gty) : option (scope gty) :=
  match l with [] => Some c | s :: l' => match one s c with Some c' => block l' c' | None => None end end.
End Block.
Fixpoint typed (s : stmt) (c : scope gty) : option (scope gty) :=
  match s with
  | SInto x n => match look x c with Some (GN m) => if m =? n then Some c else None | _ => None end
  | SSet x f => match fn_ty f with Some g => assigns x g c | None => None end
  | SList x t body => match assigns x (goty t) c with Some c1 => match block typed body c1 with Some _ => Some c1 | None => None end | None => None end
  | SMap x t body =>
    match goty t with
    | GM k _ =>
      if comparable k then match assigns x (goty t) c with Some c1 => match block typed body c1 with Some _ => Some c1 | None => None end | None => None end
      else None
    | _ => None
    end
  | SVar o t => Some ((VItem, item_ty o t) :: c)
  | SAppend x => match look x c, look VItem c with Some (GS g), Some g' => if gty_eqb g g' then Some c else None | _, _ => None end
  | SIndex x =>
    match look x c, look VKey c, look VValue c with Some (GM k g), Some k', Some g' => if gty_eqb k k' && gty_eqb g g' then Some c else None | _, _, _ => None end
  end.
Definition typeds := block typed.

(** ** Values and what the programs do *)
Section Run.
(** float32(float64), time.Parse; values of imported types, their parse functions and format methods. *)
Context (f64to32 : N -> N) (pt : bytes -> option gtime).
Context {C : Type} (parse : N -> scal -> option C) (format : N -> C -> scal).
Context (imported : N -> bool).

(** nil (pointers, slices, maps), values of primitive types, enums and aliases that are not imported, values of imported types, pointers, slices,
    maps as [range] visits them, records and unions by their fields; [VZero]: the zero value of a type that has no nil. *)
Inductive gval := VNil | VZero | VScal (s : scal) | VImp (c : C) | VPtr (v : gval) | VList (l : list gval) | VMap (l : list (scal * gval)) | VRec (l : list gval).

(** Types and unions with their fields; the members of a union are optional. *)
Inductive def := Rec (fs : list (bytes * (bool * ty))) | Uni (fs : list (bytes * ty)).
Definition fields (d : def) : list (bytes * (bool * ty)) := match d with Rec fs => fs | Uni fs => map (fun f => (fst f, (true, snd f))) fs end.
Context (types : N -> option def).

Definition zero (o : bool) (t : ty) : gval := if o then VNil else match t with TyList _ _ | TyMap _ _ _ => VNil | _ => VZero end.

(** decoder.go:906-926, convert/convert.go.  convert.NillableString, NillableBool and NillableNumeric (73-76, 82-85, 97-100) dereference the pointer
    whatever it is: nil (also beside an error) panics. *)
Definition run_fn (dec : N -> gval -> M gval) (f : fn) : M gval :=
  match f with
  | FRead k => let! s := read_kind f64to32 pt k in rret (VScal s)
  | FNil k => let! o := ReadNillable (read_kind f64to32 pt k) in rret (match o with None => VNil | Some s => if kind_eqb k KBytes then VScal s else VPtr (VScal s) end)
  | FDecode n => dec n VZero
  | FDecodeNil n => let! o := ReadNillable (dec n VZero) in rret (match o with None => VNil | Some v => VPtr v end)
  | FCast _ _ k => let! s := read_kind f64to32 pt k in rret (VScal s)
  | FNilCast c _ k => fun d =>
    match c with
    | CBytes => (let! o := ReadNillable (read_kind f64to32 pt k) in rret (match o with None => VNil | Some s => VScal s end)) d
    | _ => match ReadNillable (read_kind f64to32 pt k) d with Ret (Some s, d') => Ret (VPtr (VScal s), d') | _ => Panic end
    end
  | FParse a k => let! s := read_kind f64to32 pt k in match parse a s with Some c => rret (VImp c) | None => rfail ReadErr end
  | FNilParse a k =>
    let! o := ReadNillable (read_kind f64to32 pt k) in
    match o with None => rret VNil | Some s => match parse a s with Some c => rret (VPtr (VImp c)) | None => rfail ReadErr end end
  | FWrong => rpanic
  end.

(** m[k] = v; keys of type datetime are the same when the times are. *)
Definition scal_eqb (a b : scal) : bool :=
  match a, b with
  | SBool x, SBool y => Bool.eqb x y
  | SInt x, SInt y | SI8 x, SI8 y | SI16 x, SI16 y | SI32 x, SI32 y | SI64 x, SI64 y => (x =? y)%Z
  | SUint x, SUint y | SU8 x, SU8 y | SU16 x, SU16 y | SU32 x, SU32 y | SU64 x, SU64 y | SF32 x, SF32 y | SF64 x, SF64 y => x =? y
  | SStr x, SStr y | SBytes x, SBytes y => bytes_equal x y
  | STime x, STime y => ((t_sec x =? t_sec y)%Z && (t_nsec x =? t_nsec y))%bool
  | _, _ => false
  end.
Fixpoint mset (k : scal) (v : gval) (l : list (scal * gval)) : list (scal * gval) :=
  match l with [] => [(k, v)] | (k', v') :: l' => if scal_eqb k k' then (k', v) :: l' else (k', v') :: mset k v l' end.

(** The end of a block: variables declared in it are gone. *)
Definition leave (e e' : scope gval) : scope gval := skipn (length e' - length e) e'.

Section Seq.
Variable one : stmt -> scope gval -> M (scope gval).
Fixpoint seq (l : list stmt) (e : scope gval) : M (scope gval) :=
  match l with [] => rret e | s :: l' => let! e' := one s e in seq l' e' end.
End Seq.
Fixpoint exec (dec : N -> gval -> M gval) (s : stmt) (e : scope gval) : M (scope gval) :=
  match s with
  | SInto x n => match look x e with Some v => let! v' := dec n v in rret (update x v' e) | None => rpanic end
  | SSet x f => let! v := run_fn dec f in rret (put x v e)
  | SList x _ body => let! n := ReadArraySize in times n (fun e1 => let! e2 := seq (exec dec) body e1 in rret (leave e1 e2)) (put x (VList []) e)
  | SMap x _ body => let! n := ReadMapSize in times n (fun e1 => let! e2 := seq (exec dec) body e1 in rret (leave e1 e2)) (put x (VMap []) e)
  | SVar o t => rret ((VItem, zero o t) :: e)
  | SAppend x => match look x e, look VItem e with Some (VList l), Some v => rret (update x (VList (l ++ [v])) e) | _, _ => rpanic end
  | SIndex x =>
    match look x e, look VKey e, look VValue e with Some (VMap l), Some (VScal k), Some v => rret (update x (VMap (mset k v l)) e) | _, _, _ => rpanic end
  end.
Definition execs (dec : N -> gval -> M gval) := seq (exec dec).

(** ** Decode, msgpack_decoder_visitor.ts:22-78 *)
Fixpoint find (fs : list (bytes * (bool * ty))) (n : bytes) (i : nat) : option (nat * (bool * ty)) :=
  match fs with [] => None | (m, t) :: fs' => if bytes_equal n m then Some (i, t) else find fs' n (S i) end.
Fixpoint set_nth (i : nat) (v : gval) (l : list gval) : list gval :=
  match l, i with [], _ => [] | _ :: l', O => v :: l' | w :: l', S i' => w :: set_nth i' v l' end.
Definition start (v : gval) (fs : list (bytes * (bool * ty))) : list gval :=
  match v with VRec l => l | _ => map (fun f => zero (fst (snd f)) (snd (snd f))) fs end.
(** [fuel] bounds the depth of the recursion (the Go stack). *)
Fixpoint decode (fuel : nat) (n : N) (v : gval) : M gval :=
  match fuel with
  | O => rfail OutOfFuel
  | S f =>
    match types n with
    | None => rpanic
    | Some d =>
      let! size := ReadMapSize in
      let! l := times size (fun l =>
        let! name := ReadString in
        match find (fields d) name 0 with
        | Some (i, (o, t)) =>
          let! e := execs (decode f) (msgpackRead imported VField t o) [(VField, nth i l VZero)] in
          rret (match look VField e with Some w => set_nth i w l | None => l end)
        | None => let! _ := Skip f in rret l
        end) (start v (fields d)) in
      rret (VRec l)
    end
  end.

(** ** Encode: msgpack_encoder_visitor.ts, msgpackWrite (msgpack_helpers.ts:299-464) *)

Definition is_nil (v : gval) : bool := match v with VNil => true | _ => false end.
Definition join {A} (a b : option (list A)) : option (list A) := match a, b with Some x, Some y => Some (x ++ y) | _, _ => None end.
(** WriteX and WriteNillableX take a value of type X. *)
Definition value (k : option kind) (s : scal) : option (list (prim + gov)) :=
  match k with Some k => if kind_eqb k (kind_of s) then Some [inl (PVal s)] else None | None => None end.
Definition pointer (k : option kind) (o : option scal) : option (list (prim + gov)) :=
  match k, o with
  | Some _, None => Some [inl (POpt None)]
  | Some k, Some s => if kind_eqb k (kind_of s) then Some [inl (POpt (Some s))] else None
  | None, _ => None
  end.
Section With.
(** What is written for an item, value or field. *)
Variable w : ty -> bool -> gval -> option (list (prim + gov)).
(** msgpack_encoder_visitor.ts:22-53. *)
Fixpoint each_field (fs : list (bytes * (bool * ty))) (l : list gval) {struct l} : option (list (prim + gov)) :=
  match l, fs with
  | [], [] => Some []
  | v :: l', (name, (o, t)) :: fs' => join (Some [inl (PVal (SStr name))]) (join (w t o v) (each_field fs' l'))
  | _, _ => None
  end.
(** msgpack_encoder_visitor.ts:57-92: the first member that is not nil. *)
Fixpoint first_member (fs : list (bytes * ty)) (l : list gval) {struct l} : option (list (prim + gov)) :=
  match l, fs with
  | [], [] => Some [inl PNil]
  | v :: l', (name, t) :: fs' => if is_nil v then first_member fs' l' else join (Some [inl (PMap 1); inl (PVal (SStr name))]) (w t true v)
  | _, _ => None
  end.
Definition encode (n : N) (l : list gval) : option (list (prim + gov)) :=
  match types n with
  | None => None
  | Some (Rec fs) => join (Some [inl (PMap (len fs))]) (each_field fs l)
  | Some (Uni fs) => first_member fs l
  end.
Fixpoint each_item (o : bool) (u : ty) (l : list gval) : option (list (prim + gov)) :=
  match l with [] => Some [] | v :: l' => join (w u o v) (each_item o u l') end.
Fixpoint each_pair (o : bool) (u : ty) (l : list (scal * gval)) : option (list (prim + gov)) :=
  match l with [] => Some [] | (k, v) :: l' => join (Some [inl (PVal k)]) (join (w u o v) (each_pair o u l')) end.
End With.

(** The calls that the code written for a value [v] of type [t], optional or not, makes on the Writer; [None]: [v] is not of that type. *)
Fixpoint msgpackWrite (t : ty) (o : bool) (v : gval) {struct v} : option (list (prim + gov)) :=
  match t with
  (* lines 338-358 *)
  | TyPrim p =>
    match o, v with
    | false, VScal s => value (encodeFuncs p) s
    | true, VNil => pointer (encodeNillableFuncs p) None
    | true, VScal s => if kind_eqb (kind_of s) KBytes then pointer (encodeNillableFuncs p) (Some s) else None
    | true, VPtr (VScal s) => if kind_eqb (kind_of s) KBytes then None else pointer (encodeNillableFuncs p) (Some s)
    | _, _ => None
    end
  | TyType n | TyUnion n =>
    match o, v with
    | false, VRec l => encode msgpackWrite n l
    | true, VNil => Some [inl PNil]
    | true, VPtr (VRec l) => encode msgpackWrite n l
    | _, _ => None
    end
  (* lines 359-364 *)
  | TyEnum _ =>
    match o, v with
    | false, VScal s => value (Some KI32) s
    | true, VNil => pointer (Some KI32) None
    | true, VPtr (VScal s) => pointer (Some KI32) (Some s)
    | _, _ => None
    end
  (* lines 310-335; 416-464: an optional imported alias is looked at for nil *)
  | TyAlias a p =>
    if imported a then
      match o, v with
      | false, VImp c => value (encodeFuncs p) (format a c)
      | true, VNil => Some [inl PNil]
      | true, VPtr (VImp c) => value (encodeFuncs p) (format a c)
      | _, _ => None
      end
    else
      match o, v with
      | false, VScal s => value (encodeFuncs p) s
      | true, VNil => pointer (encodeNillableFuncs p) None
      | true, VPtr (VScal s) => pointer (encodeNillableFuncs p) (Some s)
      | _, _ => None
      end
  (* lines 365-396 *)
  | TyMap k o' u =>
    match v with
    | VNil => Some [inl (PMap 0)]
    | VMap l => join (Some [inl (PMap (u32 (len l)))]) (each_pair msgpackWrite o' u l)
    | _ => None
    end
  (* lines 397-415 *)
  | TyList o' u =>
    match v with
    | VNil => Some [inl (PArr 0)]
    | VList l => join (Some [inl (PArr (u32 (len l)))]) (each_item msgpackWrite o' u l)
    | _ => None
    end
  end.

(** msgpack.ToBytes (codec.go:10-22) of a record or union. *)
Definition ToBytes (n : N) (v : gval) : option (outcome rerr bytes) :=
  match msgpackWrite (TyType n) false v with Some calls => Some (to_bytes false calls calls) | None => None end.
(** Decode into a fresh value. *)
Definition FromBytes (fuel : nat) (n : N) (data : bytes) : outcome rerr gval :=
  match decode fuel n VZero (new_dr data) with
  | Ret (v, _) => Ret v
  | Fail (e, _) => Fail e
  | Panic => Panic
  end.
End Run.
Arguments gval : clear implicits.
