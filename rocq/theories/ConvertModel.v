(** Model of /repo/go/msgpack/convert/convert.go: adapters from what the decoder returns to the types of an
    application.  A Go call returning (value, error) is a pair; a pointer is an option; [outcome]'s error case is
    not used.  Conversions from and to floating-point numbers and between time.Time and its text are left out
    (they are parameters where a function takes one). *)
From Coq Require Import List NArith ZArith Bool.
From Verif Require Import Base MsgpackModel.
Import ListNotations.
Open Scope Z_scope.

(** The integer types of [numberic], convert.go:87-91. *)
Record ity := mkIty { i_signed : bool; i_bits : Z }.
Definition t_int8 := mkIty true 8.   Definition t_int16 := mkIty true 16.
Definition t_int32 := mkIty true 32. Definition t_int64 := mkIty true 64.
Definition t_uint8 := mkIty false 8. Definition t_uint16 := mkIty false 16.
Definition t_uint32 := mkIty false 32. Definition t_uint64 := mkIty false 64.

(** Go [T(value)] between integer types: the low bits are kept. *)
Definition convert (t : ity) (v : Z) : Z :=
  let r := v mod 2 ^ i_bits t in
  if i_signed t && (2 ^ (i_bits t - 1) <=? r) then r - 2 ^ i_bits t else r.

Definition err := option rerr.
Definition res A := outcome Empty_set (A * err).

(** Numeric, convert.go:93-95; String, Bool and ByteArray (69-71, 78-80, 102-104) are the same with the identity. *)
Definition Convert {I T} (c : I -> T) (value : I) (e : err) : res T := Ret (c value, e).
Definition Numeric (t : ity) : Z -> err -> res Z := Convert (convert t).

(** NillableNumeric, convert.go:97-100; NillableString and NillableBool (73-76, 82-85) likewise: [*value] of a nil
    pointer panics. *)
Definition Nillable {I T} (c : I -> T) (value : option I) (e : err) : res (option T) :=
  match value with
  | None => Panic
  | Some v => Ret (Some (c v), e)
  end.
Definition NillableNumeric (t : ity) : option Z -> err -> res (option Z) := Nillable (convert t).

(** Parse, convert.go:20-27; StringToTime (42-47) is Parse of time.Parse.  [zero] is T's zero value. *)
Definition Parse {I T} (zero : T) (fn : I -> T * err) (value : I) (decodeErr : err) : res T :=
  match decodeErr with
  | Some e => Ret (zero, Some e)
  | None => Ret (fn value)
  end.

(** NillableParse, convert.go:29-40. *)
Definition NillableParse {I T} (fn : I -> T * err) (value : option I) (decodeErr : err) : res (option T) :=
  match decodeErr, value with
  | Some e, _ => Ret (None, Some e)
  | None, None => Ret (None, None)
  | None, Some v =>
    match fn v with
    | (_, Some e) => Ret (None, Some e)
    | (t, None) => Ret (Some t, None)
    end
  end.

(** StringToTimePtr, convert.go:49-55, [fn] being time.Parse: a pointer to the zero time on a parse error. *)
Definition StringToTimePtr {I T} (fn : I -> T * err) (value : option I) (e : err) : res (option T) :=
  match value, e with
  | None, _ => Ret (None, e)
  | Some _, Some _ => Ret (None, e)
  | Some v, None => let (t, e') := fn v in Ret (Some t, e')
  end.

(** Format, convert.go:9-18; TimeToStringPtr (61-67) is Format of time.Format. *)
Definition Format {T S} (fn : T -> S) (value : option T) : option S :=
  match value with None => None | Some v => Some (fn v) end.

(** What a decoder's ReadNillable* method hands to an adapter (the pointer is nil whenever there is an error,
    decoder.go:45-55 and alike), and what a Read* method does. *)
Definition field_nillable {I T} (adapt : option I -> err -> res (option T)) (m : M I) (d : dr) : res (option T) :=
  match ReadNillable m d with
  | Ret (p, _) => adapt p None
  | Fail (e, _) => adapt None (Some e)
  | Panic => Panic
  end.
Definition field {I T} (zero : I) (adapt : I -> err -> res T) (m : M I) (d : dr) : res T :=
  match m d with
  | Ret (v, _) => adapt v None
  | Fail (e, _) => adapt zero (Some e)
  | Panic => Panic
  end.
