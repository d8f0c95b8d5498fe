(** Model of the record codecs generated for applications and of /repo/go/transform/transform.go.
    Code only; no proofs.

    - The record codecs are instances of one scheme (e.g. go/example/greeter/greeter.go:23-63,
      go/transport/wasmrs/mesh/modules/customer/types.go:12-52, go/transport/wasmrs/example/*.go): read the map size,
      then per entry the name and, by name, the field with its typed reader, or Skip.  [schema] lists names and
      field types, [env] is the record.
    - payload.New(buf) followed by Data() is the buffer itself. *)
From Coq Require Import List NArith ZArith Bool.
From Verif Require Import Base OperationsModel MsgpackModel MsgpackClient.
Import ListNotations.
Open Scope N_scope.

(** Field types: a single value, a nillable one, a nillable list of single values. *)
Inductive fkind := FScal (k : kind) | FOpt (k : kind) | FArr (k : kind).
Inductive fval := VScal (s : scal) | VOpt (o : option scal) | VArr (o : option (list scal)).
Definition schema := list (bytes * fkind).
Definition env := bytes -> fval.
Definition set_field (e : env) (n : bytes) (v : fval) : env := fun m => if bytes_equal m n then v else e m.

Section Env.
(** float32(float64) and time.Parse. *)
Variable f64to32 : N -> N.
Variable pt : bytes -> option gtime.

(** [o.F, err = decoder.ReadX()], [decoder.ReadNillableX()], and the list loop of msgpack_test.go:84-104 (there an
    error inside the loop is dropped, because [err] is shadowed; here it is returned). *)
Definition read_field (k : fkind) : M fval :=
  match k with
  | FScal k => let! v := read_kind f64to32 pt k in rret (VScal v)
  | FOpt k => let! v := ReadNillable (read_kind f64to32 pt k) in rret (VOpt v)
  | FArr k =>
    let! isNil := IsNextNil in
    if isNil then rret (VArr None)
    else let! n := ReadArraySize in
         let! l := times n (fun acc => let! v := read_kind f64to32 pt k in rret (acc ++ [v])) [] in
         rret (VArr (Some l))
  end.

(** [switch field]. *)
Fixpoint find_field (sc : schema) (n : bytes) : option fkind :=
  match sc with
  | [] => None
  | (m, k) :: sc' => if bytes_equal n m then Some k else find_field sc' n
  end.

(** The loop body, greeter.go:30-47. *)
Definition struct_body (sc : schema) (fuel : nat) (e : env) : M env :=
  let! n := ReadString in
  match find_field sc n with
  | Some k => let! v := read_field k in rret (set_field e n v)
  | None => let! _ := Skip fuel in rret e
  end.

(** Decode, greeter.go:23-50. *)
Definition struct_decode (sc : schema) (fuel : nat) (e : env) : M env :=
  let! n := ReadMapSize in times n (struct_body sc fuel) e.

(** Encode, greeter.go:52-63: the calls made on the Writer. *)
Definition field_calls (v : fval) : list (prim + gov) :=
  match v with
  | VScal s => [inl (PVal s)]
  | VOpt o => [inl (POpt o)]
  | VArr None => [inl PNil]
  | VArr (Some l) => inl (PArr (u32 (len l))) :: map (fun s => inl (PVal s)) l
  end.
Definition struct_calls (sc : schema) (e : env) : list (prim + gov) :=
  inl (PMap (len sc)) :: flat_map (fun f => inl (PVal (SStr (fst f))) :: field_calls (e (fst f))) sc.

(** ** transform.go *)

(** String..Bool (transform.go:17-255) and the generic variants Int32Decode..StringEncode (316-374), by type. *)
Definition transform_encode (s : scal) : outcome rerr bytes := to_bytes false [inl (PVal s)] [inl (PVal s)].
Definition transform_decode (k : kind) (data : bytes) : outcome rerr scal :=
  match read_kind f64to32 pt k (new_dr data) with
  | Ret (s, _) => Ret s
  | Fail (e, _) => Fail e
  | Panic => Panic
  end.

(** Time, transform.go:257-275: via a string; [fmt] is time.Format(RFC3339Nano), [pt] its time.Parse. *)
Definition time_encode (fmt : gtime -> bytes) (t : gtime) : outcome rerr bytes := transform_encode (SStr (fmt t)).
Definition time_decode (data : bytes) : outcome rerr gtime :=
  match ReadString (new_dr data) with
  | Ret (s, _) => match pt s with Some t => Ret t | None => Fail ReadErr end
  | Fail (e, _) => Fail e
  | Panic => Panic
  end.

(** CodecEncode/CodecDecode, transform.go:302-314, and MsgPackEncode/MsgPackDecode (291-300), for a record.  Also
    msgpack.ToBytes (codec.go:10-22). *)
Definition codec_encode (sc : schema) (e : env) : outcome rerr bytes := to_bytes false (struct_calls sc e) (struct_calls sc e).
Definition codec_decode (sc : schema) (fuel : nat) (e0 : env) (data : bytes) : outcome rerr env :=
  match struct_decode sc fuel e0 (new_dr data) with
  | Ret (e, _) => Ret e
  | Fail (x, _) => Fail x
  | Panic => Panic
  end.

(** SliceEncode, transform.go:392-407. *)
Definition slice_calls (sc : schema) (l : list env) : list (prim + gov) :=
  inl (PArr (u32 (len l))) :: flat_map (struct_calls sc) l.
Definition slice_encode (sc : schema) (l : list env) : outcome rerr bytes := to_bytes false (slice_calls sc l) (slice_calls sc l).

(** SliceDecode, transform.go:376-390: the error of ReadArraySize is dropped (the size is then 0) and so are those of
    Decode.  An element whose Decode failed is [None] here (in Go it holds the fields read so far). *)
Definition slice_decode (sc : schema) (fuel : nat) (e0 : env) (data : bytes) : outcome rerr (list (option env)) :=
  let item : M (option env) := fun d =>
    match struct_decode sc fuel e0 d with
    | Ret (e, d') => Ret (Some e, d')
    | Fail (OutOfFuel, d') => Fail (OutOfFuel, d')
    | Fail (_, d') => Ret (None, d')
    | Panic => Panic
    end in
  let go n d := match times n (fun acc => let! v := item in rret (acc ++ [v])) [] d with
                | Ret (l, _) => Ret l
                | Fail (x, _) => Fail x
                | Panic => Panic
                end in
  match ReadArraySize (new_dr data) with
  | Ret (n, d) => go n d
  | Fail (_, d) => go 0 d
  | Panic => Panic
  end.
End Env.
