(** Model of the generator of invokers and wrappers, /repo/codegen/src/tinygo/invokers_visitor.ts, wrappers_visitor.ts, utilities.ts
    (getOperationParts) and constants.ts (primitiveTransformers), and of what the Go code that they write does with parameters, items and
    results.  Code only; no proofs.

    - An operation has parameters, at most one of them a stream (the generator throws otherwise), and a result.  A unary operation has one
      parameter.  A unary operation whose parameter is a stream is generated like one with that parameter in a list ([Args]).
      Left out: optional unary parameters, optional results and items, aliases of types that are not primitive.
    - The Go functions that the generated code names are listed with the types they are for; [None]: there is no function of that name, or
      nothing is written where a value is needed.  A program is taken to compile when the names exist, the functions take and give the Go types
      of the values, and mono and flux are not mixed.  That the file imports the packages is left to PkgGenModel (C91).
    - wrappers_visitor.ts imports msgpackRead from another project (deps/codegen/go.ts), which msgpack_helpers.ts is a changed copy of; for the
      types for which it matters (primitive types) it is taken to do the same.  So are isObject (records and unions), isVoid, expandType
      (with streams as flux.Flux[T], wrappers_visitor.ts:50) and msgpackVarAccessParam (the parameters in the order given). *)
From Coq Require Import List NArith ZArith Bool.
From Verif Require Import Base OperationsModel MsgpackModel MsgpackSpec MsgpackClient TransformModel GenModel.
Import ListNotations.
Open Scope N_scope.

Inductive param := One (o : bool) (t : ty) | Many (t : ty).
(** [Args n l]: [n] is the number of the record of the parameters that are not streams (operationArgsType). *)
Inductive input := Unary (t : ty) | Args (n : N) (l : list (bytes * param)).
(** Nothing, one value, a stream of values or of nothing. *)
Inductive result := RVoid | ROne (t : ty) | RMany (t : option ty).
Record op := mkOp { o_in : input; o_out : result }.

(** ** getOperationParts, utilities.ts:39-79; wrappers_visitor.ts:101-122 *)
Fixpoint plain_params (l : list (bytes * param)) : list (bytes * (bool * ty)) :=
  match l with [] => [] | (n, One o t) :: l' => (n, (o, t)) :: plain_params l' | (_, Many _) :: l' => plain_params l' end.
Fixpoint stream_params (l : list (bytes * param)) : list ty :=
  match l with [] => [] | (_, One _ _) :: l' => stream_params l' | (_, Many t) :: l' => t :: stream_params l' end.
Definition parameters (i : input) : list (bytes * (bool * ty)) := match i with Unary _ => [] | Args _ l => plain_params l end.
Definition streams (i : input) : list ty := match i with Unary _ => [] | Args _ l => stream_params l end.
Definition streamIn (i : input) : option ty := match streams i with t :: _ => Some t | [] => None end.

Inductive rxpkg := Mono | Flux.
Definition rx_eqb (a b : rxpkg) : bool := match a, b with Mono, Mono | Flux, Flux => true | _, _ => false end.
(** returnPackage, rxPackage: by the result alone. *)
Definition returnPackage (r : result) : rxpkg := match r with RMany _ => Flux | _ => Mono end.
(** What gCaller.RequestX returns and what invoke.RequestXHandler has to return. *)
Definition wire (x : op) : rxpkg := match streamIn (o_in x), o_out x with None, (RVoid | ROne _) => Mono | _, _ => Flux end.

(** ** Names *)

(** msgpack.${capitalize(p.name)}ToBytes, codec.go:25-168. *)
Inductive enc :=
| EToBytes (k : kind) | EAny           (* msgpack.XToBytes, msgpack.AnyToBytes *)
| ETransform (k : kind)                (* transform.X.Encode *)
| EGeneric (k : kind) (a : N)          (* transform.XEncode[A], T ~x *)
| ECodec (g : gty)                     (* msgpack.ToBytes, transform.MsgPackEncode[T] *)
| ESlice (g : gty)                     (* transform.SliceEncode[T] *)
| EVoid | ENothing.                    (* transform.Void.Encode; []byte{} *)
Inductive dec :=
| DRead (k : kind)                     (* decoder.ReadX() *)
| DTransform (k : kind) | DGeneric (k : kind) (a : N) | DConvert (k : kind) (a : N)   (* transform.X.Decode, transform.XDecode[A], A(transform.X.Decode) *)
| DCodec (g : gty) | DSlice (g : gty) | DVoid | DNothing.

Definition ToBytesName (p : pname) : option enc :=
  match p with
  | NI8 => Some (EToBytes KI8) | NU8 => Some (EToBytes KU8) | NI16 => Some (EToBytes KI16) | NU16 => Some (EToBytes KU16) | NI32 => Some (EToBytes KI32)
  | NU32 => Some (EToBytes KU32) | NI64 => Some (EToBytes KI64) | NU64 => Some (EToBytes KU64) | NF32 => Some (EToBytes KF32) | NF64 => Some (EToBytes KF64)
  | NBool => Some (EToBytes KBool) | NString => Some (EToBytes KStr) | NBytes => Some (EToBytes KBytes) | NAny => Some EAny
  | NID | NDatetime => None
  end.
(** primitiveTransformers, constants.ts:17-32; transform.Time is for time.Time. *)
Definition transformer (p : pname) : option kind :=
  match p with
  | NBool => Some KBool | NString => Some KStr | NDatetime => Some KTime | NI8 => Some KI8 | NU8 => Some KU8 | NI16 => Some KI16 | NU16 => Some KU16
  | NI32 => Some KI32 | NU32 => Some KU32 | NI64 => Some KI64 | NU64 => Some KU64 | NF32 => Some KF32 | NF64 => Some KF64 | NBytes => Some KBytes
  | NID | NAny => None
  end.
(** transform.${capitalize(p.name)}: of String, Int.. Uint8, Float64, Float32, Bytes, Bool, Time, Void (transform.go:17-284) those that are named like
    an Apex type. *)
Definition transform_by_name (p : pname) : option kind := match p with NString => Some KStr | NBytes => Some KBytes | NBool => Some KBool | _ => None end.
(** transform.${capitalize(p.name)}Encode, ..Decode: of Int32, Int64, Uint64, String (transform.go:316-374). *)
Definition generic_by_name (p : pname) : option kind := match p with NString => Some KStr | _ => None end.
(** transform.${capitalize(Go type)}: "[]byte", "time.Time" and "interface{}" give no name. *)
Definition transform_by_type (p : pname) : option kind := match p with NBytes | NDatetime | NAny => None | _ => match goprim p with GK k => Some k | _ => None end end.

Section Generator.
Context (imported : N -> bool).

(** ** Invokers *)

(** invokers_visitor.ts:114-180: the payload of the request.  Nothing is written for aliases (126-141), lists and maps. *)
Definition client_request (i : input) : option enc :=
  match i with
  | Unary (TyEnum _) => Some (EToBytes KI32)
  | Unary (TyType n) | Unary (TyUnion n) => Some (ECodec (GN n))
  | Unary (TyPrim p) => ToBytesName p
  | Unary (TyAlias _ _ | TyList _ _ | TyMap _ _ _) => None
  | Args n l => match plain_params l with [] => Some ENothing | _ => Some (ECodec (GN n)) end
  end.
(** Lines 193-233: the items of the stream parameter.  The generic functions are instantiated with the Apex name, which is no Go type if the
    alias is imported. *)
Definition client_item (t : ty) : option enc :=
  match t with
  | TyPrim p => match transform_by_name p with Some k => Some (ETransform k) | None => None end
  | TyAlias a p => if imported a then None else match generic_by_name p with Some k => Some (EGeneric k a) | None => None end
  | TyEnum n => Some (EGeneric KI32 n)
  | TyType n | TyUnion n => Some (ECodec (GN n))
  | TyList _ _ | TyMap _ _ _ => None
  end.
(** Lines 234-275.  With a stream parameter and a result that is not a stream, [returns] is the property "type" of something that is not a stream;
    mono.Map on a flux does not compile whatever it is. *)
Definition client_response (r : result) : rxpkg * option dec :=
  match r with
  | RVoid | RMany None => (Mono, Some DVoid)
  | ROne t | RMany (Some t) =>
    (returnPackage r,
     match t with
     | TyAlias a p => if imported a then None else match generic_by_name p with Some k => Some (DGeneric k a) | None => None end
     | TyEnum n => Some (DGeneric KI32 n)
     | TyPrim p => match transformer p with Some k => Some (DTransform k) | None => None end
     | TyList o u => Some (DSlice (gotyo o u))
     | TyType _ | TyUnion _ | TyMap _ _ _ => Some (DCodec (goty t))
     end)
  end.

(** ** Wrappers *)

(** wrappers_visitor.ts:185-271. *)
Definition server_request (i : input) : option dec :=
  match i with
  | Unary (TyEnum n) => Some (DConvert KI32 n)
  | Unary (TyAlias a p) => if imported a then None else match transform_by_type p with Some k => Some (DConvert k a) | None => None end
  | Unary (TyType n) | Unary (TyUnion n) => Some (DCodec (GN n))
  | Unary (TyPrim p) => match prim_read p false with FRead k => Some (DRead k) | _ => None end
  | Unary (TyList _ _ | TyMap _ _ _) => None
  | Args n l => match plain_params l with [] => Some DNothing | _ => Some (DCodec (GN n)) end
  end.
(** Lines 123-170. *)
Definition server_item (t : ty) : option dec :=
  match t with
  | TyPrim p => match transformer p with Some k => Some (DTransform k) | None => None end
  | TyEnum n => Some (DGeneric KI32 n)
  | TyAlias a p => if imported a then None else match generic_by_name p with Some k => Some (DGeneric k a) | None => None end
  | TyType _ | TyUnion _ | TyList _ _ | TyMap _ _ _ => Some (DCodec (goty t))
  end.
(** Lines 272-324; nothing is returned for maps.  For records the type is that of the operation (317): a flux.Flux if the result is a stream. *)
Definition server_response (r : result) : rxpkg * option enc :=
  match r with
  | RVoid | RMany None => (Mono, Some EVoid)
  | ROne t | RMany (Some t) =>
    match t with
    | TyPrim p => (returnPackage r, match transformer p with Some k => Some (ETransform k) | None => None end)
    | TyAlias a p => (returnPackage r, if imported a then None else match generic_by_name p with Some k => Some (EGeneric k a) | None => None end)
    | TyEnum n => (returnPackage r, Some (EGeneric KI32 n))
    | TyList o u => (Mono, Some (ESlice (gotyo o u)))
    | TyType n | TyUnion n => (returnPackage r, match r with RMany _ => None | _ => Some (ECodec (GN n)) end)
    | TyMap _ _ _ => (returnPackage r, None)
    end
  end.

(** ** The Go compiler's view *)

(** The kind of the underlying type of a value type. *)
Definition under (t : ty) : option kind :=
  match t with
  | TyEnum _ => Some KI32
  | TyAlias a p => if imported a then None else match goprim p with GK k => Some k | _ => None end
  | _ => None
  end.
Definition kind_is (o : option kind) (k : kind) : bool := match o with Some k' => kind_eqb k' k | None => false end.
(** *T has Encode and Decode. *)
Definition codec (t : ty) : bool := match t with TyType _ | TyUnion _ => true | _ => false end.
Definition same_gty (t : ty) (g : gty) : bool := gty_eqb (goty t) g.
Definition takes_value (e : enc) (t : ty) : bool :=
  match e with
  | EToBytes k => same_gty t (GK k) || match t with TyEnum _ => kind_eqb k KI32 | _ => false end   (* int32(x) is written for enums *)
  | EAny => true
  | ETransform k => same_gty t (GK k)
  | EGeneric k a => same_gty t (GN a) && kind_is (under t) k
  | ECodec g => codec t && same_gty t g
  | ESlice g => match t with TyList o u => negb o && codec u && gty_eqb (goty u) g | _ => false end
  | EVoid | ENothing => false
  end.
Definition gives_value (d : dec) (t : ty) : bool :=
  match d with
  | DRead k | DTransform k => same_gty t (GK k)
  | DGeneric k a | DConvert k a => same_gty t (GN a) && kind_is (under t) k
  | DCodec g => codec t && same_gty t g
  | DSlice g => match t with TyList o u => negb o && codec u && gty_eqb (goty u) g | _ => false end
  | DVoid | DNothing => false
  end.
Definition is_some {A} (f : A -> bool) (o : option A) : bool := match o with Some a => f a | None => false end.

(** The record of the parameters compiles: its fields do (C87). *)
Definition args_compile (l : list (bytes * param)) : bool :=
  forallb (fun f => match typeds (msgpackRead imported VField (snd (snd f)) (fst (snd f))) [(VField, gotyo (fst (snd f)) (snd (snd f)))] with Some _ => true | None => false end)
    (plain_params l).
Definition one_stream (i : input) : bool := match streams i with [] | [_] => true | _ => false end.

Definition client_compiles (x : op) : bool :=
  one_stream (o_in x)
  && match o_in x with Unary t => is_some (fun e => takes_value e t) (client_request (o_in x)) | Args _ l => args_compile l end
  && match streamIn (o_in x) with Some t => is_some (fun e => takes_value e t) (client_item t) | None => true end
  && rx_eqb (wire x) (fst (client_response (o_out x))) && rx_eqb (fst (client_response (o_out x))) (returnPackage (o_out x))
  && match o_out x with RVoid | RMany None => true | ROne t | RMany (Some t) => is_some (fun d => gives_value d t) (snd (client_response (o_out x))) end.

(** The wrapper passes the stream after the other parameters (249-270); the handler has the parameters in the order of the operation. *)
Fixpoint stream_last (l : list (bytes * param)) : bool :=
  match l with [] => true | [_] => true | (_, One _ _) :: l' => stream_last l' | (_, Many _) :: _ => false end.
Definition server_compiles (x : op) : bool :=
  one_stream (o_in x)
  && match o_in x with Unary t => is_some (fun d => gives_value d t) (server_request (o_in x)) | Args _ l => args_compile l && stream_last l end
  && match streamIn (o_in x) with Some t => is_some (fun d => gives_value d t) (server_item t) | None => true end
  && rx_eqb (wire x) (fst (server_response (o_out x))) && rx_eqb (fst (server_response (o_out x))) (returnPackage (o_out x))
  && match o_out x with RVoid | RMany None => true | ROne t | RMany (Some t) => is_some (fun e => takes_value e t) (snd (server_response (o_out x))) end.
End Generator.

(** ** What the functions do *)
Section Run.
(** As in GenModel; [fmt] is time.Format(RFC3339Nano). *)
Context (f64to32 : N -> N) (pt : bytes -> option gtime) (fmt : gtime -> bytes).
Context {C : Type} (parse : N -> scal -> option C) (format : N -> C -> scal).
Context (imported : N -> bool) (types : N -> option def).
Notation val := (gval C).

(** transform.SliceEncode (transform.go:392-407): size and items. *)
Definition slice_bytes (n : N) (v : val) : option (outcome rerr bytes) :=
  match msgpackWrite format imported types (TyList false (TyType n)) false v with Some calls => Some (to_bytes false calls calls) | None => None end.
(** transform.SliceDecode (376-390): all errors are dropped; an item whose Decode failed is shown as [VZero] (in Go it holds the fields read so far). *)
Definition slice_value (fuel : nat) (n : N) (data : bytes) : outcome rerr val :=
  let item : M val := fun d =>
    match decode f64to32 pt parse imported types fuel n VZero d with
    | Ret r => Ret r
    | Fail (OutOfFuel, d') => Fail (OutOfFuel, d')
    | Fail (_, d') => Ret (VZero, d')
    | Panic => Panic
    end in
  let go n d := match times n (fun acc => let! v := item in rret (acc ++ [v])) [] d with
                | Ret (l, _) => Ret (VList l)
                | Fail (x, _) => Fail x
                | Panic => Panic
                end in
  match ReadArraySize (new_dr data) with
  | Ret (n, d) => go n d
  | Fail (_, d) => go 0 d
  | Panic => Panic
  end.

(** [None]: the value is not of the type that the function takes.  AnyToBytes is only named for parameters of type any. *)
Definition run_enc (e : enc) (v : val) : option (outcome rerr bytes) :=
  match e, v with
  | ETransform KTime, VScal (STime t) => Some (time_encode fmt t)
  | (EToBytes k | ETransform k | EGeneric k _), VScal s => if kind_eqb k (kind_of s) then Some (transform_encode s) else None
  | ECodec (GN n), _ => ToBytes format imported types n v
  | ESlice (GN n), _ => slice_bytes n v
  | EVoid, VRec [] | ENothing, VRec [] => Some (Ret [])
  | _, _ => None
  end.
Definition run_dec (fuel : nat) (d : dec) (data : bytes) : outcome rerr val :=
  match d with
  | DTransform KTime => match time_decode pt data with Ret t => Ret (VScal (STime t)) | Fail e => Fail e | Panic => Panic end
  | DRead k | DTransform k | DGeneric k _ | DConvert k _ => match transform_decode f64to32 pt k data with Ret s => Ret (VScal s) | Fail e => Fail e | Panic => Panic end
  | DCodec (GN n) => FromBytes f64to32 pt parse imported types fuel n data
  | DSlice (GN n) => slice_value fuel n data
  | DVoid | DNothing => Ret (VRec [])
  | DCodec _ | DSlice _ => Panic
  end.
End Run.
