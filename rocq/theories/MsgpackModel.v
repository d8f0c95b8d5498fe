(** Model of /repo/go/msgpack: data_reader.go, format.go, encoder.go, sizer.go, decoder.go, codec.go.
    Code only; no proofs.

    Conventions:
    - Go signed integers are [Z], unsigned ones [N]; conversions are explicit ([to_signed], [of_signed]).
    - [float32]/[float64] are represented by their IEEE bit patterns, i.e. by the result of
      math.Float32bits/Float64bits; the code only moves those bits, except for [float32(v)] of a float64 in
      ReadFloat32, which is the parameter [f64to32].
    - [time.Time] is (Unix seconds, nanoseconds 0..999999999); the location is ignored.  time.Parse is the
      parameter [parse_time].
    - [string] is its bytes.  Strings and byte slices returned by the decoder alias the input buffer in Go
      (unsafe.go:14-30); the model returns their current contents.
    - error values: [ErrRange] is data_reader.go:9, every ReadError is [ReadErr] (messages ignored).
      [OutOfFuel] is not a Go error: it marks that the model's recursion bound was hit.
    - On 64-bit Go: int and uint have 64 bits. *)
From Coq Require Import List NArith ZArith Bool.
From Verif Require Import Base OperationsModel.
Import ListNotations.
Open Scope N_scope.

(** Two's complement reading of a [bits]-bit number: Go [int8(v)], [int16(v)], ... of an unsigned [v]. *)
Definition to_signed (bits : N) (v : N) : Z :=
  if v <? 2 ^ (bits - 1) then Z.of_N v else (Z.of_N v - 2 ^ Z.of_N bits)%Z.

(** Go [uint8(v)], [uint16(v)], ... of a signed [v]. *)
Definition of_signed (bits : N) (z : Z) : N := Z.to_N (z mod 2 ^ Z.of_N bits).

Inductive rerr := ErrRange | ReadErr | OutOfFuel.

(** * data_reader.go *)

(** DataReader, data_reader.go:11-15; [err] can only be ErrRange. *)
Record dr := mkDR { d_buf : bytes; d_off : N; d_err : bool }.

(** NewDataReader, data_reader.go:17-21. *)
Definition new_dr (b : bytes) : dr := mkDR b 0 false.

(** A read operation: changes the reader and returns a value or an error. *)
Definition M (A : Type) : Type := dr -> outcome (rerr * dr) (A * dr).

Definition rret {A} (a : A) : M A := fun d => Ret (a, d).
Definition rfail {A} (e : rerr) : M A := fun d => Fail (e, d).
Definition rpanic {A} : M A := fun _ => Panic.
Definition rbind {A B} (m : M A) (k : A -> M B) : M B :=
  fun d => match m d with
           | Ret (a, d') => k a d'
           | Fail e => Fail e
           | Panic => Panic
           end.
Notation "'let!' x ':=' m 'in' k" := (rbind m (fun x => k)) (at level 200, x pattern, m at level 100, k at level 200).

(** [d.Discard(n)] as a statement: the returned error is dropped (it stays recorded in [d.err]). *)
Definition ign (m : M unit) : M unit :=
  fun d => match m d with
           | Fail (_, d') => Ret (tt, d')
           | r => r
           end.

(** checkBufferSize, data_reader.go:239-249: [true] when the operation may proceed.  Both the sum and the
    buffer length are uint32. *)
Definition check (n : N) (d : dr) : bool * dr :=
  if d_err d then (false, d)
  else if u32 (len (d_buf d)) <? u32 (d_off d + n) then (false, mkDR (d_buf d) (d_off d) true)
  else (true, d).

(** [d.byteOffset += n]. *)
Definition step (n : N) (d : dr) : dr := mkDR (d_buf d) (u32 (d_off d + n)) (d_err d).

(** GetBytes, data_reader.go:23-30: [buffer[off : off+n]] panics when the (wrapped) end is before the start
    or beyond the buffer. *)
Definition get_bytes (n : N) : M bytes := fun d =>
  match check n d with
  | (false, d') => Fail (ErrRange, d')
  | (true, d') =>
    let lo := d_off d' in
    let hi := u32 (d_off d' + n) in
    if (lo <=? hi) && (hi <=? len (d_buf d'))
    then Ret (firstn (N.to_nat (hi - lo)) (skipn (N.to_nat lo) (d_buf d')), step n d')
    else Panic
  end.

(** PeekUint8, data_reader.go:42-47. *)
Definition peek8 : M N := fun d =>
  match check 1 d with
  | (false, d') => Fail (ErrRange, d')
  | (true, d') =>
    match @index no_err (d_buf d') (N.to_nat (d_off d')) with
    | Ret b => Ret (b, d')
    | _ => Panic
    end
  end.

(** Discard, data_reader.go:49-55. *)
Definition discard (n : N) : M unit := fun d =>
  match check n d with
  | (false, d') => Fail (ErrRange, d')
  | (true, d') => Ret (tt, step n d')
  end.

(** GetUint8/16/32/64 (data_reader.go:111-145) and, through them, GetFloat32/64 (57-73): [w] bytes,
    big-endian. *)
Definition get (w : nat) : M N := fun d =>
  match check (N.of_nat w) d with
  | (false, d') => Fail (ErrRange, d')
  | (true, d') =>
    match @slice_from no_err _ (d_buf d') (d_off d') with
    | Ret l => match @get_be no_err w l with
               | Ret v => Ret (v, step (N.of_nat w) d')
               | _ => Panic
               end
    | _ => Panic
    end
  end.

(** GetInt8/16/32/64, data_reader.go:75-109. *)
Definition get_int (w : nat) : M Z := let! v := get w in rret (to_signed (8 * N.of_nat w) v).

(** A write operation of the encoder: the error result is dropped by every caller, the state is kept. *)
Definition W : Type := dr -> outcome no_err dr.

Definition wseq (a b : W) : W := fun d => bind (a d) b.
Notation "a ;;; b" := (wseq a b) (at level 190, right associativity).
Definition wskip : W := fun d => Ret d.

(** SetUint8/16/32/64, SetInt8/16/32/64, SetFloat32/64, data_reader.go:147-237, given the big-endian bytes to
    store: PutUintXX(buffer[off:], v) panics when the buffer is too short. *)
Definition set_fix (src : bytes) : W := fun d =>
  match check (len src) d with
  | (false, d') => Ret d'
  | (true, d') =>
    do b <- put_at (d_buf d') (d_off d') src ;
    Ret (step (len src) (mkDR b (d_off d') (d_err d')))
  end.
Definition set_uint (w : nat) (v : N) : W := set_fix (be w v).
Definition set_int (w : nat) (z : Z) : W := set_fix (be w (of_signed (8 * N.of_nat w) z)).

(** SetBytes, data_reader.go:32-40: the length is truncated to 32 bits, copy() copies what fits. *)
Definition set_bytes (src : bytes) : W := fun d =>
  let n := u32 (len src) in
  match check n d with
  | (false, d') => Ret d'
  | (true, d') =>
    do b <- copy_at (d_buf d') (d_off d') src ;
    Ret (step n (mkDR b (d_off d') (d_err d')))
  end.

(** * format.go:3-44 *)
Definition FormatFixMap := 0x80.
Definition FormatFixArray := 0x90.
Definition FormatFixString := 0xa0.
Definition FormatNil := 0xc0.
Definition FormatFalse := 0xc2.
Definition FormatTrue := 0xc3.
Definition FormatBin8 := 0xc4.
Definition FormatBin16 := 0xc5.
Definition FormatBin32 := 0xc6.
Definition FormatExt8 := 0xc7.
Definition FormatExt16 := 0xc8.
Definition FormatExt32 := 0xc9.
Definition FormatFloat32 := 0xca.
Definition FormatFloat64 := 0xcb.
Definition FormatUint8 := 0xcc.
Definition FormatUint16 := 0xcd.
Definition FormatUint32 := 0xce.
Definition FormatUint64 := 0xcf.
Definition FormatInt8 := 0xd0.
Definition FormatInt16 := 0xd1.
Definition FormatInt32 := 0xd2.
Definition FormatInt64 := 0xd3.
Definition FormatFixExt1 := 0xd4.
Definition FormatFixExt2 := 0xd5.
Definition FormatFixExt4 := 0xd6.
Definition FormatFixExt8 := 0xd7.
Definition FormatFixExt16 := 0xd8.
Definition FormatString8 := 0xd9.
Definition FormatString16 := 0xda.
Definition FormatString32 := 0xdb.
Definition FormatArray16 := 0xdc.
Definition FormatArray32 := 0xdd.
Definition FormatMap16 := 0xde.
Definition FormatMap32 := 0xdf.
Definition FormatNegativeFixInt := 0xe0.

(** * Values handed to the writer *)

(** time.Time: Unix() and Nanosecond(). *)
Record gtime := mkTime { t_sec : Z; t_nsec : N }.

(** Arguments of the single-value Write methods, by Go type.  [SInt]/[SUint] are Go int/uint, which have no
    Write method of their own but occur in WriteAny. *)
Inductive scal :=
| SBool (b : bool)
| SInt (z : Z) | SI8 (z : Z) | SI16 (z : Z) | SI32 (z : Z) | SI64 (z : Z)
| SUint (n : N) | SU8 (n : N) | SU16 (n : N) | SU32 (n : N) | SU64 (n : N)
| SF32 (bits : N) | SF64 (bits : N)
| SStr (s : bytes)
| STime (t : gtime)
| SBytes (s : bytes).

(** Static types of those arguments: element types of slices and key types of maps. *)
Inductive kind :=
| KBool | KInt | KI8 | KI16 | KI32 | KI64 | KUint | KU8 | KU16 | KU32 | KU64
| KF32 | KF64 | KStr | KTime | KBytes.

(** One call of a Writer method other than WriteAny: WriteNil, WriteX, WriteNillableX, WriteArraySize,
    WriteMapSize. *)
Inductive prim :=
| PNil
| PVal (s : scal)
| POpt (o : option scal)
| PArr (n : N)
| PMap (n : N).

(** A Go value of type [any] as WriteAny sees it, with the order in which [range] visits its maps.  A Codec is
    represented by the calls its Encode method makes on the writer ([inl]: a plain call, [inr]: WriteAny).
    [GTSlice k]/[GTMap k] are []T / map[T]any with T of kind [k]; [GOther] is any other dynamic type. *)
Inductive gov :=
| GNil
| GVal (s : scal)
| GSlice (l : list gov)
| GTSlice (k : kind) (l : list scal)
| GMapSS (l : list (bytes * bytes))
| GTMap (k : kind) (l : list (scal * gov))
| GMapAny (l : list (gov * gov))
| GCodec (l : list (prim + gov))
| GOther.

(** * encoder.go *)

(** WriteInt64, encoder.go:75-93; WriteInt8/16/32 (39, 51, 63) only convert to int64. *)
Definition WriteInt64 (z : Z) : W :=
  if (0 <=? z)%Z && (z <? 2^7)%Z then set_uint 1 (of_signed 8 z)
  else if (z <? 0)%Z && (-(2^5) <=? z)%Z then set_uint 1 (N.lor (of_signed 8 z) FormatNegativeFixInt)
  else if (z <=? 127)%Z && (-128 <=? z)%Z then set_uint 1 FormatInt8 ;;; set_int 1 z
  else if (z <=? 32767)%Z && (-32768 <=? z)%Z then set_uint 1 FormatInt16 ;;; set_int 2 z
  else if (z <=? 2147483647)%Z && (-2147483648 <=? z)%Z then set_uint 1 FormatInt32 ;;; set_int 4 z
  else set_uint 1 FormatInt64 ;;; set_int 8 z.

(** WriteUint64, encoder.go:139-155; WriteUint8/16/32 (103, 115, 127) only convert to uint64. *)
Definition WriteUint64 (n : N) : W :=
  if n <? 2^7 then set_uint 1 (u8 n)
  else if n <=? 255 then set_uint 1 FormatUint8 ;;; set_uint 1 (u8 n)
  else if n <=? 65535 then set_uint 1 FormatUint16 ;;; set_uint 2 (u16 n)
  else if n <=? 4294967295 then set_uint 1 FormatUint32 ;;; set_uint 4 (u32 n)
  else set_uint 1 FormatUint64 ;;; set_uint 8 n.

(** writeStringLength, encoder.go:191-204. *)
Definition writeStringLength (n : N) : W :=
  if n <? 32 then set_uint 1 (N.lor (u8 n) FormatFixString)
  else if n <=? 255 then set_uint 1 FormatString8 ;;; set_uint 1 (u8 n)
  else if n <=? 65535 then set_uint 1 FormatString16 ;;; set_uint 2 (u16 n)
  else set_uint 1 FormatString32 ;;; set_uint 4 n.

(** WriteString, encoder.go:206-210. *)
Definition WriteString (s : bytes) : W := writeStringLength (u32 (len s)) ;;; set_bytes s.

(** writeBinLength, encoder.go:258-269. *)
Definition writeBinLength (n : N) : W :=
  if n <=? 255 then set_uint 1 FormatBin8 ;;; set_uint 1 (u8 n)
  else if n <=? 65535 then set_uint 1 FormatBin16 ;;; set_uint 2 (u16 n)
  else set_uint 1 FormatBin32 ;;; set_uint 4 n.

(** WriteByteArray, encoder.go:271-280. *)
Definition WriteByteArray (s : bytes) : W :=
  let n := u32 (len s) in
  if n =? 0 then set_uint 1 FormatBin8 ;;; set_uint 1 0
  else writeBinLength n ;;; set_bytes s.

(** WriteArraySize, encoder.go:290-300. *)
Definition WriteArraySize (n : N) : W :=
  if n <? 16 then set_uint 1 (N.lor (u8 n) FormatFixArray)
  else if n <=? 65535 then set_uint 1 FormatArray16 ;;; set_uint 2 (u16 n)
  else set_uint 1 FormatArray32 ;;; set_uint 4 n.

(** WriteMapSize, encoder.go:302-312. *)
Definition WriteMapSize (n : N) : W :=
  if n <? 16 then set_uint 1 (N.lor (u8 n) FormatFixMap)
  else if n <=? 65535 then set_uint 1 FormatMap16 ;;; set_uint 2 (u16 n)
  else set_uint 1 FormatMap32 ;;; set_uint 4 n.

(** encodeTime, encoder.go:236-256: the payload bytes of a timestamp. *)
Definition encodeTime (t : gtime) : bytes :=
  let secs := of_signed 64 (t_sec t) in
  if N.shiftr secs 34 =? 0 then
    let data := N.lor (u64 (N.shiftl (t_nsec t) 34)) secs in
    if N.land data 0xffffffff00000000 =? 0 then be 4 (u32 data) else be 8 data
  else be 4 (u32 (t_nsec t)) ++ be 8 secs.

(** encodeExtLen, encoder.go:521-541, with write1/2/4 (543-566). *)
Definition encodeExtLen (l : N) : W :=
  if l =? 1 then set_uint 1 FormatFixExt1
  else if l =? 2 then set_uint 1 FormatFixExt2
  else if l =? 4 then set_uint 1 FormatFixExt4
  else if l =? 8 then set_uint 1 FormatFixExt8
  else if l =? 16 then set_uint 1 FormatFixExt16
  else if l <=? 255 then set_bytes (FormatExt8 :: be 1 (u8 l))
  else if l <=? 65535 then set_bytes (FormatExt16 :: be 2 (u16 l))
  else set_bytes (FormatExt32 :: be 4 (u32 l)).

(** WriteTime, encoder.go:220-226. *)
Definition WriteTime (t : gtime) : W :=
  let b := encodeTime t in
  encodeExtLen (len b) ;;; set_int 1 (-1)%Z ;;; set_bytes b.

(** WriteNil, encoder.go:19-21. *)
Definition WriteNil : W := set_uint 1 FormatNil.

(** The Write methods by argument type: WriteBool 23-29, WriteInt8.. 39-93, WriteUint8.. 103-155,
    WriteFloat32 165-168, WriteFloat64 178-181, WriteString, WriteTime, WriteByteArray; int and uint as in
    WriteAny, encoder.go:322, 332. *)
Definition enc_scal (s : scal) : W :=
  match s with
  | SBool b => if b then set_uint 1 FormatTrue else set_uint 1 FormatFalse
  | SInt z | SI8 z | SI16 z | SI32 z | SI64 z => WriteInt64 z
  | SUint n | SU8 n | SU16 n | SU32 n | SU64 n => WriteUint64 n
  | SF32 b => set_uint 1 FormatFloat32 ;;; set_uint 4 b
  | SF64 b => set_uint 1 FormatFloat64 ;;; set_uint 8 b
  | SStr s => WriteString s
  | STime t => WriteTime t
  | SBytes s => WriteByteArray s
  end.

(** Any Writer call except WriteAny on an Encoder; WriteNillable*: encoder.go:31-37 and the like, 282-288. *)
Definition enc_prim (p : prim) : W :=
  match p with
  | PNil => WriteNil
  | PVal s => enc_scal s
  | POpt None => WriteNil
  | POpt (Some s) => enc_scal s
  | PArr n => WriteArraySize n
  | PMap n => WriteMapSize n
  end.

(** Element kinds of the typed slices listed in Encoder.WriteAny, encoder.go:357-424. *)
Definition enc_slice_kind (k : kind) : bool :=
  match k with
  | KStr | KBool | KInt | KI8 | KI16 | KI32 | KI64 | KUint | KU16 | KU32 | KU64 => true
  | _ => false
  end.

(** Key kinds of the typed maps listed in WriteAny, encoder.go:433-509 and sizer.go:408-484. *)
Definition map_kind (k : kind) : bool :=
  match k with
  | KStr | KInt | KI8 | KI16 | KI32 | KI64 | KUint | KU8 | KU16 | KU32 | KU64 => true
  | _ => false
  end.

(** [for _, v := range l { f(v) }]. *)
Definition w_each {A} (f : A -> W) : list A -> W :=
  fix each l := match l with [] => wskip | x :: l' => f x ;;; each l' end.

(** Encoder.WriteAny, encoder.go:314-519.  A nil value is written by the [if] (315-317) and again by
    [case nil] (319-320); a time.Time and a []time.Time have no case and write nothing. *)
Fixpoint enc_any (v : gov) : W :=
  match v with
  | GNil => WriteNil ;;; WriteNil
  | GVal (STime _) => wskip
  | GVal s => enc_scal s
  | GSlice l => WriteArraySize (u32 (len l)) ;;; w_each enc_any l
  | GTSlice k l => if enc_slice_kind k then WriteArraySize (u32 (len l)) ;;; w_each enc_scal l else wskip
  | GMapSS l =>
    WriteMapSize (u32 (len l)) ;;; w_each (fun kv => WriteString (fst kv) ;;; WriteString (snd kv)) l
  | GTMap k l =>
    if map_kind k
    then WriteMapSize (u32 (len l)) ;;; w_each (fun kv => enc_scal (fst kv) ;;; enc_any (snd kv)) l
    else wskip
  | GMapAny l => WriteMapSize (u32 (len l)) ;;; w_each (fun kv => enc_any (fst kv) ;;; enc_any (snd kv)) l
  | GCodec l => w_each (fun c => match c with inl p => enc_prim p | inr v => enc_any v end) l
  | GOther => wskip
  end.

(** A sequence of Writer calls, as the generated Encode methods make them. *)
Definition enc_calls (l : list (prim + gov)) : W :=
  w_each (fun c => match c with inl p => enc_prim p | inr v => enc_any v end) l.

(** * sizer.go: every method adds to a uint32 length *)

Definition S_ : Type := N -> N.
Definition add32 (k : N) : S_ := fun n => u32 (n + k).
Definition sseq (a b : S_) : S_ := fun n => b (a n).
Definition sskip : S_ := fun n => n.

(** Sizer.WriteInt64, sizer.go:185-197. *)
Definition SizeInt64 (z : Z) : S_ :=
  if (-(2^5) <=? z)%Z && (z <? 2^7)%Z then add32 1
  else if (z <? 2^7)%Z && (-(2^7) <=? z)%Z then add32 2
  else if (z <? 2^15)%Z && (-(2^15) <=? z)%Z then add32 3
  else if (z <? 2^31)%Z && (-(2^31) <=? z)%Z then add32 5
  else add32 9.

(** Sizer.WriteUint64, sizer.go:236-248. *)
Definition SizeUint64 (n : N) : S_ :=
  if n <? 2^7 then add32 1
  else if n <? 2^8 then add32 2
  else if n <? 2^16 then add32 3
  else if n <? 2^32 then add32 5
  else add32 9.

(** Sizer.writeStringLength, sizer.go:39-49. *)
Definition sizeStringLength (n : N) : S_ :=
  if n <? 32 then add32 1
  else if n <=? 255 then add32 2
  else if n <=? 65535 then add32 3
  else add32 5.

(** Sizer.WriteString, sizer.go:24-29. *)
Definition SizeString (s : bytes) : S_ := let n := u32 (len s) in sseq (sizeStringLength n) (add32 n).

(** Sizer.writeBinLength, sizer.go:117-125. *)
Definition sizeBinLength (n : N) : S_ :=
  if n <? 255 then add32 1
  else if n <=? 65535 then add32 2
  else add32 4.

(** Sizer.WriteByteArray, sizer.go:127-135. *)
Definition SizeByteArray (s : bytes) : S_ :=
  let n := u32 (len s) in
  if n =? 0 then add32 2 else sseq (sizeBinLength n) (add32 (u32 (n + 1))).

(** Sizer.WriteArraySize, sizer.go:107-115, and WriteMapSize, sizer.go:145-153: same text. *)
Definition SizeHeader (n : N) : S_ :=
  if n <? 16 then add32 1
  else if n <=? 65535 then add32 3
  else add32 5.

(** Sizer.encodeTime, sizer.go:57-70. *)
Definition sizeTime (t : gtime) : N :=
  let secs := of_signed 64 (t_sec t) in
  if N.shiftr secs 34 =? 0 then
    let data := N.lor (u64 (N.shiftl (t_nsec t) 34)) secs in
    if N.land data 0xffffffff00000000 =? 0 then 4 else 8
  else 12.

(** Sizer.encodeExtLen, sizer.go:72-85. *)
Definition sizeExtLen (l : N) : S_ :=
  if (l =? 1) || (l =? 2) || (l =? 4) || (l =? 8) || (l =? 16) then add32 1
  else if l <=? 255 then add32 2
  else if l <=? 65535 then add32 3
  else add32 5.

(** Sizer.WriteTime, sizer.go:51-55. *)
Definition SizeTime (t : gtime) : S_ := sseq (sizeExtLen (sizeTime t)) (add32 (u32 (1 + sizeTime t))).

(** The Write methods of Sizer by argument type: WriteBool 95-97, WriteFloat32 257-259,
    WriteFloat64 267-269, the rest above. *)
Definition siz_scal (s : scal) : S_ :=
  match s with
  | SBool _ => add32 1
  | SInt z | SI8 z | SI16 z | SI32 z | SI64 z => SizeInt64 z
  | SUint n | SU8 n | SU16 n | SU32 n | SU64 n => SizeUint64 n
  | SF32 _ => add32 5
  | SF64 _ => add32 9
  | SStr s => SizeString s
  | STime t => SizeTime t
  | SBytes s => SizeByteArray s
  end.

(** Sizer.WriteNil, sizer.go:20-22, and the WriteNillable* methods. *)
Definition siz_prim (p : prim) : S_ :=
  match p with
  | PNil => add32 1
  | PVal s => siz_scal s
  | POpt None => add32 1
  | POpt (Some s) => siz_scal s
  | PArr n => SizeHeader n
  | PMap n => SizeHeader n
  end.

(** Element kinds of the typed slices listed in Sizer.WriteAny, sizer.go:325-399: as the encoder's, plus
    time.Time. *)
Definition siz_slice_kind (k : kind) : bool :=
  match k with
  | KStr | KTime | KBool | KInt | KI8 | KI16 | KI32 | KI64 | KUint | KU16 | KU32 | KU64 => true
  | _ => false
  end.

Definition s_each {A} (f : A -> S_) : list A -> S_ :=
  fix each l := match l with [] => sskip | x :: l' => sseq (f x) (each l') end.

(** Sizer.WriteAny, sizer.go:278-487. *)
Fixpoint siz_any (v : gov) : S_ :=
  match v with
  | GNil => sseq (add32 1) (add32 1)
  | GVal s => siz_scal s
  | GSlice l => sseq (SizeHeader (u32 (len l))) (s_each siz_any l)
  | GTSlice k l => if siz_slice_kind k then sseq (SizeHeader (u32 (len l))) (s_each siz_scal l) else sskip
  | GMapSS l =>
    sseq (SizeHeader (u32 (len l))) (s_each (fun kv => sseq (SizeString (fst kv)) (SizeString (snd kv))) l)
  | GTMap k l =>
    if map_kind k
    then sseq (SizeHeader (u32 (len l))) (s_each (fun kv => sseq (siz_scal (fst kv)) (siz_any (snd kv))) l)
    else sskip
  | GMapAny l =>
    sseq (SizeHeader (u32 (len l))) (s_each (fun kv => sseq (siz_any (fst kv)) (siz_any (snd kv))) l)
  | GCodec l => s_each (fun c => match c with inl p => siz_prim p | inr v => siz_any v end) l
  | GOther => sskip
  end.

Definition siz_calls (l : list (prim + gov)) : S_ :=
  s_each (fun c => match c with inl p => siz_prim p | inr v => siz_any v end) l.

(** * codec.go *)

(** ToBytes (codec.go:10-22), AnyToBytes (25-38), I8ToBytes.. BytesToBytes (41-168): measure, allocate a zeroed
    buffer of that size, write, return the buffer.  [sized] and [calls] are the calls made in the two passes;
    they are the same calls, but a map may be visited in a different order in each pass.
    AnyToBytes returns the encoder's error, the others do not look at it ([checked]). *)
Definition to_bytes (checked : bool) (sized calls : list (prim + gov)) : outcome rerr bytes :=
  let n := siz_calls sized 0 in
  match enc_calls calls (new_dr (repeat 0 (N.to_nat n))) with
  | Ret d => if checked && d_err d then Fail ErrRange else Ret (d_buf d)
  | _ => Panic
  end.

(** * decoder.go *)

(** decoder.go:931-963. *)
Definition isFixedInt (u : N) : bool := N.shiftr u 7 =? 0.
Definition isNegativeFixedInt (u : N) : bool := N.land u 0xe0 =? FormatNegativeFixInt.
Definition isFixedMap (u : N) : bool := N.land u 0xf0 =? FormatFixMap.
Definition isFixedArray (u : N) : bool := N.land u 0xf0 =? FormatFixArray.
Definition isFixedString (u : N) : bool := N.land u 0xe0 =? FormatFixString.
Definition isString (u : N) : bool :=
  isFixedString u || (u =? FormatString8) || (u =? FormatString16) || (u =? FormatString32)
  || isFixedArray u || (u =? FormatArray16) || (u =? FormatArray32).

(** IsNextNil, decoder.go:20-30. *)
Definition IsNextNil : M bool :=
  let! prefix := peek8 in
  if prefix =? FormatNil then let! _ := ign (discard 1) in rret true else rret false.

(** ReadBool, decoder.go:32-43. *)
Definition ReadBool : M bool :=
  let! prefix := get 1 in
  if prefix =? FormatTrue then rret true
  else if prefix =? FormatFalse then rret false
  else rfail ReadErr.

(** ReadInt64, decoder.go:138-163. *)
Definition ReadInt64 : M Z :=
  let! prefix := get 1 in
  if isFixedInt prefix || isNegativeFixedInt prefix then rret (to_signed 8 prefix)
  else if prefix =? FormatInt8 then get_int 1
  else if prefix =? FormatInt16 then get_int 2
  else if prefix =? FormatInt32 then get_int 4
  else if prefix =? FormatInt64 then get_int 8
  else rfail ReadErr.

(** ReadInt8/16/32, decoder.go:57-70, 84-97, 111-124: range check of ReadInt64. *)
Definition ReadIntN (lo hi : Z) : M Z :=
  let! v := ReadInt64 in
  if (v <=? hi)%Z && (lo <=? v)%Z then rret v else rfail ReadErr.
Definition ReadInt8 : M Z := ReadIntN (-128) 127.
Definition ReadInt16 : M Z := ReadIntN (-32768) 32767.
Definition ReadInt32 : M Z := ReadIntN (-2147483648) 2147483647.

(** [if v < 0 { return error }; return uint64(v)], decoder.go:285-309. *)
Definition nonneg (m : M Z) : M N :=
  let! v := m in if (v <? 0)%Z then rfail ReadErr else rret (of_signed 64 v).

(** ReadUint64, decoder.go:258-313. *)
Definition ReadUint64 : M N :=
  let! prefix := get 1 in
  if isFixedInt prefix then rret prefix
  else if isNegativeFixedInt prefix then nonneg (rret (to_signed 8 prefix))
  else if prefix =? FormatUint8 then get 1
  else if prefix =? FormatUint16 then get 2
  else if prefix =? FormatUint32 then get 4
  else if prefix =? FormatUint64 then get 8
  else if prefix =? FormatInt8 then nonneg (get_int 1)
  else if prefix =? FormatInt16 then nonneg (get_int 2)
  else if prefix =? FormatInt32 then nonneg (get_int 4)
  else if prefix =? FormatInt64 then nonneg (get_int 8)
  else rfail ReadErr.

(** ReadUint8/16/32, decoder.go:177-190, 204-217, 231-244. *)
Definition ReadUintN (hi : N) : M N :=
  let! v := ReadUint64 in
  if v <=? hi then rret v else rfail ReadErr.
Definition ReadUint8 : M N := ReadUintN 255.
Definition ReadUint16 : M N := ReadUintN 65535.
Definition ReadUint32 : M N := ReadUintN 4294967295.

(** ReadFloat32, decoder.go:327-340; [f64to32] is Go's float32(float64) on bit patterns. *)
Definition ReadFloat32 (f64to32 : N -> N) : M N :=
  let! prefix := get 1 in
  if prefix =? FormatFloat32 then get 4
  else if prefix =? FormatFloat64 then let! v := get 8 in rret (f64to32 v)
  else rfail ReadErr.

(** ReadFloat64, decoder.go:354-364. *)
Definition ReadFloat64 : M N :=
  let! prefix := get 1 in
  if prefix =? FormatFloat64 then get 8 else rfail ReadErr.

(** readStringLength, decoder.go:469-494. *)
Definition readStringLength : M N :=
  let! prefix := get 1 in
  if isFixedString prefix then rret (N.land prefix 0x1f)
  else if isFixedArray prefix then rret (N.land prefix 0x0f)
  else if prefix =? FormatString8 then get 1
  else if (prefix =? FormatString16) || (prefix =? FormatArray16) then get 2
  else if (prefix =? FormatString32) || (prefix =? FormatArray32) then get 4
  else rfail ReadErr.

(** ReadString, decoder.go:452-455, with readString, 496-505. *)
Definition ReadString : M bytes := let! n := readStringLength in get_bytes n.

(** readBinLength, decoder.go:527-550. *)
Definition readBinLength : M N :=
  let! prefix := get 1 in
  if isFixedArray prefix then rret (N.land prefix 0x0f)
  else if prefix =? FormatNil then rret 0
  else if prefix =? FormatBin8 then get 1
  else if prefix =? FormatBin16 then get 2
  else if prefix =? FormatBin32 then get 4
  else rfail ReadErr.

(** ReadByteArray, decoder.go:507-517. *)
Definition ReadByteArray : M bytes := let! n := readBinLength in get_bytes n.

(** ReadArraySize, decoder.go:552-570. *)
Definition ReadArraySize : M N :=
  let! prefix := get 1 in
  if isFixedArray prefix then rret (N.land prefix 0x0f)
  else if prefix =? FormatArray16 then get 2
  else if prefix =? FormatArray32 then get 4
  else if prefix =? FormatNil then rret 0
  else rfail ReadErr.

(** ReadMapSize, decoder.go:572-590. *)
Definition ReadMapSize : M N :=
  let! prefix := get 1 in
  if isFixedMap prefix then rret (N.land prefix 0x0f)
  else if prefix =? FormatMap16 then get 2
  else if prefix =? FormatMap32 then get 4
  else if prefix =? FormatNil then rret 0
  else rfail ReadErr.

(** ReadNillable*, decoder.go:45-55 and the like: None is the nil pointer.  ReadNillableByteArray
    (519-525) and DecodeNillable (915-926) have the same shape. *)
Definition ReadNillable {A} (m : M A) : M (option A) :=
  let! isNil := IsNextNil in
  if isNil then rret None else let! v := m in rret (Some v).

(** parseExtLen, decoder.go:876-900: the Ext8/16/32 lengths are read as MessagePack integers. *)
Definition parseExtLen (c : N) : M N :=
  if c =? FormatFixExt1 then rret 1
  else if c =? FormatFixExt2 then rret 2
  else if c =? FormatFixExt4 then rret 4
  else if c =? FormatFixExt8 then rret 8
  else if c =? FormatFixExt16 then rret 16
  else if c =? FormatExt8 then ReadUint8
  else if c =? FormatExt16 then ReadUint16
  else if c =? FormatExt32 then ReadUint32
  else rfail ReadErr.

(** extHeader, decoder.go:854-866, with readCode, 868-874. *)
Definition extHeader (c : N) : M (Z * N) :=
  let! l := parseExtLen c in
  let! id := get 1 in
  rret (to_signed 8 id, l).

(** time.Unix(sec, nsec) for nsec >= 0 (Go standard library): seconds carried out of the nanoseconds. *)
Definition time_unix (sec : Z) (nsec : N) : gtime :=
  mkTime (to_signed 64 (of_signed 64 (sec + Z.of_N (nsec / 1000000000)))) (nsec mod 1000000000).

(** decodeTime, decoder.go:428-450. *)
Definition decodeTime (n : N) : M gtime :=
  let! b := get_bytes n in
  if len b =? 4 then rret (time_unix (Z.of_N (unbe b)) 0)
  else if len b =? 8 then
    rret (time_unix (to_signed 64 (N.land (unbe b) 0x00000003ffffffff)) (N.shiftr (unbe b) 34))
  else if len b =? 12 then
    rret (time_unix (to_signed 64 (unbe (skipn 4 b))) (unbe (firstn 4 b)))
  else rfail ReadErr.

(** ReadTime, decoder.go:378-414.  Setting the zero time's location (409-411) is not visible here. *)
Definition ReadTime (parse_time : bytes -> option gtime) : M gtime :=
  let! prefix := peek8 in
  if isString prefix then
    let! s := ReadString in
    match parse_time s with Some t => rret t | None => rfail ReadErr end
  else
    let! _ := ign (discard 1) in
    let! (id, l) := extHeader prefix in
    if negb (id =? -1)%Z && negb (id =? 13)%Z then rfail ReadErr
    else decodeTime l.

(** getSize, decoder.go:608-706: number of nested objects that still have to be skipped. *)
Definition getSize : M N :=
  let! b := get 1 in
  if isNegativeFixedInt b || isFixedInt b then rret 0
  else if isFixedString b then let! _ := ign (discard (N.land b 0x1f)) in rret 0
  else if isFixedArray b then rret (N.land b 0x0f)
  else if isFixedMap b then rret (2 * N.land b 0x0f)
  else if (b =? FormatNil) || (b =? FormatTrue) || (b =? FormatFalse) then rret 0
  else if (b =? FormatString8) || (b =? FormatBin8) then
    let! n := get 1 in let! _ := discard n in rret 0
  else if (b =? FormatString16) || (b =? FormatBin16) then
    let! n := get 2 in let! _ := discard n in rret 0
  else if (b =? FormatString32) || (b =? FormatBin32) then
    let! n := get 4 in let! _ := discard n in rret 0
  else if b =? FormatFloat32 then let! _ := ign (discard 4) in rret 0
  else if b =? FormatFloat64 then let! _ := ign (discard 8) in rret 0
  else if (b =? FormatUint8) || (b =? FormatInt8) then let! _ := ign (discard 1) in rret 0
  else if (b =? FormatUint16) || (b =? FormatInt16) then let! _ := ign (discard 2) in rret 0
  else if (b =? FormatUint32) || (b =? FormatInt32) then let! _ := ign (discard 4) in rret 0
  else if (b =? FormatUint64) || (b =? FormatInt64) then let! _ := ign (discard 8) in rret 0
  else if b =? FormatFixExt1 then let! _ := ign (discard 1) in rret 0
  else if b =? FormatFixExt2 then let! _ := ign (discard 3) in rret 0
  else if b =? FormatFixExt4 then let! _ := ign (discard 5) in rret 0
  else if b =? FormatFixExt8 then let! _ := ign (discard 9) in rret 0
  else if b =? FormatFixExt16 then let! _ := ign (discard 17) in rret 0
  else if b =? FormatArray16 then get 2
  else if b =? FormatArray32 then get 4
  else if b =? FormatMap16 then let! v := get 2 in rret (u32 (2 * v))
  else if b =? FormatMap32 then let! v := get 4 in rret (u32 (2 * v))
  else rfail ReadErr.

(** A loop running [body] [n] times, stopping at the first error. *)
Definition times {A} (n : N) (body : A -> M A) (a : A) : M A := fun d =>
  N.iter n (fun r => match r with Ret (a, d) => body a d | other => other end) (Ret (a, d)).

(** Skip, decoder.go:592-606.  [fuel] bounds the depth of the recursion (the Go stack). *)
Fixpoint Skip (fuel : nat) : M unit :=
  match fuel with
  | O => rfail OutOfFuel
  | S f =>
    let! n := getSize in
    times n (fun _ => Skip f) tt
  end.

(** Dynamic values produced by ReadAny, with their Go dynamic type. *)
Inductive dv :=
| DNil | DBool (b : bool)
| DI8 (z : Z) | DI16 (z : Z) | DI32 (z : Z) | DI64 (z : Z)
| DU8 (n : N) | DU16 (n : N) | DU32 (n : N) | DU64 (n : N)
| DF32 (bits : N) | DF64 (bits : N)
| DStr (s : bytes) | DBytes (s : bytes)
| DArr (l : list dv)
| DMap (l : list (dv * dv)).

(** Floating-point [==] on bit patterns with [e] exponent and [m] fraction bits: NaN equals nothing,
    +0 equals -0. *)
Definition feq (e m : N) (a b : N) : bool :=
  let mag x := x mod 2 ^ (e + m) in
  let isnan x := (2 ^ e - 1) * 2 ^ m <? mag x in
  negb (isnan a) && negb (isnan b) && ((a =? b) || ((mag a =? 0) && (mag b =? 0))).

(** Go [==] of two hashable interface values: same dynamic type and equal. *)
Definition key_eq (a b : dv) : bool :=
  match a, b with
  | DNil, DNil => true
  | DBool x, DBool y => Bool.eqb x y
  | DI8 x, DI8 y | DI16 x, DI16 y | DI32 x, DI32 y | DI64 x, DI64 y => (x =? y)%Z
  | DU8 x, DU8 y | DU16 x, DU16 y | DU32 x, DU32 y | DU64 x, DU64 y => x =? y
  | DF32 x, DF32 y => feq 8 23 x y
  | DF64 x, DF64 y => feq 11 52 x y
  | DStr x, DStr y => if list_eq_dec N.eq_dec x y then true else false
  | _, _ => false
  end.

(** Interface values that may be used as map keys: slices and maps panic. *)
Definition hashable (k : dv) : bool :=
  match k with DBytes _ | DArr _ | DMap _ => false | _ => true end.

(** [m[key] = value]: replaces the entry of an equal key (Go's runtime stores the new key as well, which
    shows for +0 and -0), otherwise adds an entry.  Entries are kept in order of insertion, which Go does not
    expose. *)
Fixpoint map_put (m : list (dv * dv)) (k v : dv) : list (dv * dv) :=
  match m with
  | [] => [(k, v)]
  | (k', v') :: m' => if key_eq k' k then (k, v) :: m' else (k', v') :: map_put m' k v
  end.

(** readArray, decoder.go:828-837; [rd] is ReadAny. *)
Definition readArray (rd : M dv) (n : N) : M dv :=
  let! l := times n (fun acc => let! v := rd in rret (acc ++ [v])) [] in
  rret (DArr l).

(** readMap, decoder.go:839-852. *)
Definition readMap (rd : M dv) (n : N) : M dv :=
  let! m := times n (fun m => let! k := rd in
                              let! v := rd in
                              if hashable k then rret (map_put m k v) else rpanic) [] in
  rret (DMap m).

(** ReadAny, decoder.go:708-826.  The allocation of [make([]any, n)] for the announced length is not modelled.
    [fuel] bounds the depth of the recursion. *)
Fixpoint ReadAny (fuel : nat) : M dv :=
  match fuel with
  | O => rfail OutOfFuel
  | S f =>
    let! b := get 1 in
    if isFixedInt b || isNegativeFixedInt b then rret (DI64 (to_signed 8 b))
    else if isFixedString b then let! s := get_bytes (N.land b 0x1f) in rret (DStr s)
    else if isFixedArray b then readArray (ReadAny f) (N.land b 0x0f)
    else if isFixedMap b then readMap (ReadAny f) (N.land b 0x0f)
    else if b =? FormatNil then rret DNil
    else if b =? FormatTrue then rret (DBool true)
    else if b =? FormatFalse then rret (DBool false)
    else if b =? FormatInt8 then let! v := get_int 1 in rret (DI8 v)
    else if b =? FormatInt16 then let! v := get_int 2 in rret (DI16 v)
    else if b =? FormatInt32 then let! v := get_int 4 in rret (DI32 v)
    else if b =? FormatInt64 then let! v := get_int 8 in rret (DI64 v)
    else if b =? FormatUint8 then let! v := get 1 in rret (DU8 v)
    else if b =? FormatUint16 then let! v := get 2 in rret (DU16 v)
    else if b =? FormatUint32 then let! v := get 4 in rret (DU32 v)
    else if b =? FormatUint64 then let! v := get 8 in rret (DU64 v)
    else if b =? FormatFloat32 then let! v := get 4 in rret (DF32 v)
    else if b =? FormatFloat64 then let! v := get 8 in rret (DF64 v)
    else if b =? FormatString8 then let! n := get 1 in let! s := get_bytes n in rret (DStr s)
    else if b =? FormatString16 then let! n := get 2 in let! s := get_bytes n in rret (DStr s)
    else if b =? FormatString32 then let! n := get 4 in let! s := get_bytes n in rret (DStr s)
    else if b =? FormatArray16 then let! n := get 2 in readArray (ReadAny f) n
    else if b =? FormatArray32 then let! n := get 4 in readArray (ReadAny f) n
    else if b =? FormatMap16 then let! n := get 2 in readMap (ReadAny f) n
    else if b =? FormatMap32 then let! n := get 4 in readMap (ReadAny f) n
    else if b =? FormatBin8 then let! n := get 1 in let! s := get_bytes n in rret (DBytes s)
    else if b =? FormatBin16 then let! n := get 2 in let! s := get_bytes n in rret (DBytes s)
    else if b =? FormatBin32 then let! n := get 4 in let! s := get_bytes n in rret (DBytes s)
    else rfail ReadErr
  end.
