(** Client code: an arbitrary sequence of reads on one decoder, going on after errors.  Not part of /repo; it only
    calls the functions of decoder.go. *)
From Coq Require Import List NArith ZArith Bool.
From Verif Require Import Base OperationsModel MsgpackModel MsgpackSpec.
Import ListNotations.
Open Scope N_scope.

(** The reader of each single-value type, as a value tagged with that type. *)
Definition read_kind (f64to32 : N -> N) (pt : bytes -> option gtime) (k : kind) : M scal :=
  match k with
  | KBool => let! v := ReadBool in rret (SBool v)
  | KInt => let! v := ReadInt64 in rret (SInt v)
  | KI8 => let! v := ReadInt8 in rret (SI8 v)
  | KI16 => let! v := ReadInt16 in rret (SI16 v)
  | KI32 => let! v := ReadInt32 in rret (SI32 v)
  | KI64 => let! v := ReadInt64 in rret (SI64 v)
  | KUint => let! v := ReadUint64 in rret (SUint v)
  | KU8 => let! v := ReadUint8 in rret (SU8 v)
  | KU16 => let! v := ReadUint16 in rret (SU16 v)
  | KU32 => let! v := ReadUint32 in rret (SU32 v)
  | KU64 => let! v := ReadUint64 in rret (SU64 v)
  | KF32 => let! v := ReadFloat32 f64to32 in rret (SF32 v)
  | KF64 => let! v := ReadFloat64 in rret (SF64 v)
  | KStr => let! v := ReadString in rret (SStr v)
  | KTime => let! v := ReadTime pt in rret (STime v)
  | KBytes => let! v := ReadByteArray in rret (SBytes v)
  end.

(** [f64to32] and [pt] are Go's float32(float64) and time.Parse; [fuel] bounds the recursion of Skip and ReadAny. *)
Fixpoint run_op (f64to32 : N -> N) (pt : bytes -> option gtime) (fuel : nat) (o : rop) : M unit :=
  let v {A} (m : M A) : M unit := let! _ := m in rret tt in
  match o with
  | OIsNextNil => v IsNextNil
  | OBool => v ReadBool
  | OI8 => v ReadInt8 | OI16 => v ReadInt16 | OI32 => v ReadInt32 | OI64 => v ReadInt64
  | OU8 => v ReadUint8 | OU16 => v ReadUint16 | OU32 => v ReadUint32 | OU64 => v ReadUint64
  | OF32 => v (ReadFloat32 f64to32) | OF64 => v ReadFloat64
  | OStr => v ReadString | OBin => v ReadByteArray | OTime => v (ReadTime pt)
  | OArr => v ReadArraySize | OMap => v ReadMapSize
  | OSkip => Skip fuel | OAny => v (ReadAny fuel)
  | ONillable o => v (ReadNillable (run_op f64to32 pt fuel o))
  end.

(** The results of the reads one after another, and the reader left behind. *)
Fixpoint run_ops (f64to32 : N -> N) (pt : bytes -> option gtime) (fuel : nat) (l : list rop) (d : dr)
  : outcome no_err (list (option rerr) * dr) :=
  match l with
  | [] => Ret ([], d)
  | o :: l' =>
    match run_op f64to32 pt fuel o d with
    | Ret (_, d') => do (rs, d'') <- run_ops f64to32 pt fuel l' d' ; Ret (None :: rs, d'')
    | Fail (e, d') => do (rs, d'') <- run_ops f64to32 pt fuel l' d' ; Ret (Some e :: rs, d'')
    | Panic => Panic
    end
  end.

(** Reading back what single calls wrote, in the same order. *)
Inductive shape := ShNil | ShVal (k : kind) | ShOpt (k : kind) | ShArr | ShMap.
Definition shape_of (p : prim) (k : kind) : shape :=
  match p with PNil => ShNil | PVal s => ShVal (kind_of s) | POpt _ => ShOpt k | PArr _ => ShArr | PMap _ => ShMap end.
Definition read_shape (f64to32 : N -> N) (pt : bytes -> option gtime) (s : shape) : M prim :=
  match s with
  | ShNil => let! b := IsNextNil in if b then rret PNil else rfail ReadErr
  | ShVal k => let! v := read_kind f64to32 pt k in rret (PVal v)
  | ShOpt k => let! v := ReadNillable (read_kind f64to32 pt k) in rret (POpt v)
  | ShArr => let! n := ReadArraySize in rret (PArr n)
  | ShMap => let! n := ReadMapSize in rret (PMap n)
  end.
Fixpoint read_shapes (f64to32 : N -> N) (pt : bytes -> option gtime) (l : list shape) : M (list prim) :=
  match l with
  | [] => rret []
  | s :: l' => let! p := read_shape f64to32 pt s in let! ps := read_shapes f64to32 pt l' in rret (p :: ps)
  end.
