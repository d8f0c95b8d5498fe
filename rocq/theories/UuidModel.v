(** Model of go/types/uuid: uuid.go, marshal.go, util.go, version4.go, time.go.  Code only; no proofs.

    A UUID (Go [16]byte) is a list of 16 bytes; strings are their bytes.  Locks are not modelled: every exported
    function is one step. *)
From Coq Require Import List NArith ZArith Bool.
From Verif Require Import Base OperationsModel MsgpackModel.
Import ListNotations.
Open Scope N_scope.

(** Go [s[i]]: panics when out of range. *)
Definition at_ {E} (s : bytes) (i : N) : outcome E N :=
  match nth_error s (N.to_nat i) with Some b => Ret b | None => Panic end.
(** Go [s[i] = v] for an index in range. *)
Definition set_at (s : bytes) (i : nat) (v : N) : bytes := firstn i s ++ v :: skipn (S i) s.

(** util.go:19-36 xvalues. *)
Definition xvalues : bytes :=
  repeat 255 48 ++
  [0; 1; 2; 3; 4; 5; 6; 7; 8; 9; 255; 255; 255; 255; 255; 255] ++
  [255; 10; 11; 12; 13; 14; 15; 255; 255; 255; 255; 255; 255; 255; 255; 255] ++
  repeat 255 16 ++
  [255; 10; 11; 12; 13; 14; 15; 255; 255; 255; 255; 255; 255; 255; 255; 255] ++
  repeat 255 144.
(** util.go:39-43 xtob; the index is a byte, so it is in range. *)
Definition xtob (x1 x2 : N) : N * bool :=
  let b1 := nth (N.to_nat x1) xvalues 0 in
  let b2 := nth (N.to_nat x2) xvalues 0 in
  (N.lor (u8 (N.shiftl b1 4)) b2, negb (b1 =? 255) && negb (b2 =? 255)).

Definition uuid := bytes.
Definition zero_uuid : uuid := repeat 0 16.

(** The errors of uuid.go:73, 87, 92, 97, 107. *)
Inductive perr := BadPrefix | BadFormat | BadLength (n : N).

(** uuid.go:86-91 and 100-110: both loops; [eager] is the first one, which stores the byte before looking at [ok]. *)
Fixpoint fill (eager : bool) (s : bytes) (u : uuid) (i : nat) (xs : list N) : outcome no_err (uuid * option perr) :=
  match xs with
  | [] => Ret (u, None)
  | x :: xs' =>
    do a <- at_ s x ;
    do b <- at_ s (x + 1) ;
    let (v, ok) := xtob a b in
    if ok then fill eager s (set_at u i v) (S i) xs'
    else Ret (if eager then set_at u i v else u, Some BadFormat)
  end.

(** strings.ToLower and bytes.ToLower on the nine bytes of the prefix, for ASCII letters.  Simplification: other letters
    are left alone.  Go's functions map them to other runes or to U+FFFD, but nine bytes containing one never become
    the nine ASCII bytes the result is compared with. *)
Definition lower (b : N) : N := if (65 <=? b) && (b <=? 90) then b + 32 else b.
(** "urn:uuid:" *)
Definition urn : bytes := [117; 114; 110; 58; 117; 117; 105; 100; 58].

(** uuid.go:93-111: the part after the switch. *)
Definition parse_dashed (s : bytes) : outcome no_err (uuid * option perr) :=
  do c8 <- at_ s 8 ;
  if negb (c8 =? 45) then Ret (zero_uuid, Some BadFormat) else
  do c13 <- at_ s 13 ;
  if negb (c13 =? 45) then Ret (zero_uuid, Some BadFormat) else
  do c18 <- at_ s 18 ;
  if negb (c18 =? 45) then Ret (zero_uuid, Some BadFormat) else
  do c23 <- at_ s 23 ;
  if negb (c23 =? 45) then Ret (zero_uuid, Some BadFormat) else
  fill false s zero_uuid 0 [0; 2; 4; 6; 9; 11; 14; 16; 19; 21; 24; 26; 28; 30; 32; 34].

(** uuid.go:64-112 Parse, and 115-156 ParseBytes (the same steps on a []byte; its first loop counts by two). *)
Definition Parse (s : bytes) : outcome no_err (uuid * option perr) :=
  if len s =? 36 then parse_dashed s
  else if len s =? 36 + 9 then
    do p <- slice_to s 9 ;
    if negb (bytes_equal (map lower p) urn) then Ret (zero_uuid, Some BadPrefix)
    else do r <- slice_from s 9 ; parse_dashed r
  else if len s =? 36 + 2 then do r <- slice_from s 1 ; parse_dashed r
  else if len s =? 32 then fill true s zero_uuid 0 [0; 2; 4; 6; 8; 10; 12; 14; 16; 18; 20; 22; 24; 26; 28; 30]
  else Ret (zero_uuid, Some (BadLength (len s))).

(** uuid.go:160-166 MustParse. *)
Definition MustParse (s : bytes) : outcome no_err uuid :=
  do (u, e) <- Parse s ; match e with None => Ret u | Some _ => Panic end.

(** encoding/hex Encode. *)
Definition hextable : bytes := [48; 49; 50; 51; 52; 53; 54; 55; 56; 57; 97; 98; 99; 100; 101; 102].
Fixpoint hex_encode (src : bytes) : bytes :=
  match src with
  | [] => []
  | v :: src' => nth (N.to_nat (N.shiftr v 4)) hextable 0 :: nth (N.to_nat (N.land v 0x0f)) hextable 0 :: hex_encode src'
  end.

(** Go [uuid[a:b]]. *)
Definition part (u : uuid) (a b : nat) : bytes := firstn (b - a) (skipn a u).
(** uuid.go:200-210 encodeHex, into [dst] from offset [off]. *)
Definition encodeHex (dst : bytes) (off : N) (u : uuid) : outcome no_err bytes :=
  do d <- put_at dst off (hex_encode (part u 0 4)) ;
  do d <- put_at d (off + 8) [45] ;
  do d <- put_at d (off + 9) (hex_encode (part u 4 6)) ;
  do d <- put_at d (off + 13) [45] ;
  do d <- put_at d (off + 14) (hex_encode (part u 6 8)) ;
  do d <- put_at d (off + 18) [45] ;
  do d <- put_at d (off + 19) (hex_encode (part u 8 10)) ;
  do d <- put_at d (off + 23) [45] ;
  put_at d (off + 24) (hex_encode (part u 10 16)).
(** uuid.go:185-189 String; marshal.go:13-17 MarshalText is the same. *)
Definition String (u : uuid) : outcome no_err bytes := encodeHex (repeat 0 36) 0 u.
(** uuid.go:193-198 URN. *)
Definition URN (u : uuid) : outcome no_err bytes :=
  do d <- copy_at (repeat 0 45) 0 urn ; encodeHex d 9 u.

(** marshal.go:20-27 UnmarshalText: the receiver afterwards, and the error. *)
Definition UnmarshalText (old : uuid) (data : bytes) : outcome no_err (uuid * option perr) :=
  do (id, e) <- Parse data ; match e with Some x => Ret (old, Some x) | None => Ret (id, None) end.
(** marshal.go:30-32 MarshalBinary, 35-41 UnmarshalBinary; uuid.go:170-173 FromBytes starts from the zero UUID. *)
Definition MarshalBinary (u : uuid) : bytes := u.
Definition UnmarshalBinary (old : uuid) (data : bytes) : uuid * option perr :=
  if len data =? 16 then (overlay old data, None) else (old, Some (BadLength (len data))).

(** uuid.go:213-224 Variant, with the constants of 29-35. *)
Inductive variant := Invalid | RFC4122 | Reserved | Microsoft | Future.
Definition Variant (u : uuid) : variant :=
  let b := nth 8 u 0 in
  if N.land b 0xc0 =? 0x80 then RFC4122
  else if N.land b 0xe0 =? 0xc0 then Microsoft
  else if N.land b 0xe0 =? 0xe0 then Future
  else Reserved.
(** uuid.go:227-229 Version. *)
Definition Version (u : uuid) : N := N.shiftr (nth 6 u 0) 4.

(** ** version4.go *)

(** version4.go:53-54 and 73-74. *)
Definition stamp (u : uuid) : uuid :=
  let u1 := set_at u 6 (N.lor (N.land (nth 6 u 0) 0x0f) 0x40) in
  set_at u1 8 (N.lor (N.land (nth 8 u1 0) 0x3f) 0x80).

(** The package state of uuid.go:39-45 and the random source, an unbounded stream of bytes of which [r_pos] are used. *)
Record rstate := mkR { r_pos : nat; r_pooled : bool; r_pool_pos : nat; r_pool : bytes }.
Definition pool_size : nat := 256.
Definition r_init : rstate := mkR 0 false pool_size (repeat 0 pool_size).

Section Random.
(** [rand] is the stream; an io.ReadFull of [n] bytes either returns the next [n] or fails after consuming [Some k] of them. *)
Context (rand : nat -> N).
Definition take (from n : nat) : bytes := map rand (seq from n).

(** What an application may call: NewRandom (version4.go:39-44), with the failure of the reader if it is asked, and
    uuid.go:279-294 EnableRandPool, DisableRandPool. *)
Inductive rcall := RNew (fail : option nat) | REnable | RDisable.

(** version4.go:47-56 NewRandomFromReader. *)
Definition new_from_reader (s : rstate) (fail : option nat) : rstate * option uuid :=
  match fail with
  | Some k => (mkR (r_pos s + k) (r_pooled s) (r_pool_pos s) (r_pool s), None)
  | None => (mkR (r_pos s + 16) (r_pooled s) (r_pool_pos s) (r_pool s), Some (stamp (take (r_pos s) 16)))
  end.
(** version4.go:58-76 newRandomFromPool; a failing read overwrites the beginning of the pool. *)
Definition draw (s : rstate) : rstate * option uuid :=
  (mkR (r_pos s) (r_pooled s) (r_pool_pos s + 16) (r_pool s), Some (stamp (firstn 16 (skipn (r_pool_pos s) (r_pool s))))).
Definition new_from_pool (s : rstate) (fail : option nat) : rstate * option uuid :=
  if Nat.eqb (r_pool_pos s) pool_size then
    match fail with
    | Some k => (mkR (r_pos s + k) (r_pooled s) (r_pool_pos s) (overlay (r_pool s) (take (r_pos s) k)), None)
    | None => draw (mkR (r_pos s + pool_size) (r_pooled s) 0 (take (r_pos s) pool_size))
    end
  else draw s.
Definition rstep (s : rstate) (c : rcall) : rstate * option uuid :=
  match c with
  | RNew fail => if r_pooled s then new_from_pool s fail else new_from_reader s fail
  | REnable => (mkR (r_pos s) true (r_pool_pos s) (r_pool s), None)
  | RDisable => (mkR (r_pos s) false pool_size (r_pool s), None)
  end.
(** The UUIDs produced by a history, in order. *)
Fixpoint rrun (s : rstate) (h : list rcall) : list uuid :=
  match h with
  | [] => []
  | c :: h' => let (s', o) := rstep s c in (match o with Some u => [u] | None => [] end) ++ rrun s' h'
  end.
End Random.

(** ** time.go *)

(** time.go:17-23. *)
Definition g1582ns100 : Z := (2440587 - 2299160) * 86400 * 10000000.
Definition i64 (z : Z) : Z := to_signed 64 (of_signed 64 z).

(** time.go:35-40 UnixTime: seconds and nanoseconds; Go division truncates. *)
Definition UnixTime (t : Z) : Z * Z :=
  let sec := i64 (t - g1582ns100) in
  (Z.quot sec 10000000, i64 (Z.rem sec 10000000 * 100)).

(** time.go:25-31: the last time and the clock sequence. *)
Record cstate := mkC { c_last : N; c_seq : N }.
Definition c_init : cstate := mkC 0 0.

(** time.go:97-108 setClockSequence; [rnd] are the two random bytes it draws when [seq] is -1 (util.go:12-16; the panic of
    a failing random source is not modelled). *)
Definition setClockSequence (s : cstate) (seq : Z) (rnd : N) : cstate :=
  let seq' := if (seq =? -1)%Z then Z.of_N (u16 rnd) else seq in
  let new := N.lor (N.land (of_signed 16 seq') 0x3fff) 0x8000 in
  mkC (if c_seq s =? new then c_last s else 0) new.
(** time.go:51-67 getTime, when time.Now().UnixNano() is [nano]. *)
Definition getTime (s : cstate) (nano : Z) (rnd : N) : cstate * (Z * N) :=
  let s1 := if c_seq s =? 0 then setClockSequence s (-1) rnd else s in
  let now := u64 (of_signed 64 (Z.quot nano 100) + Z.to_N g1582ns100) in
  let seq := if now <=? c_last s1 then N.lor (N.land (u16 (c_seq s1 + 1)) 0x3fff) 0x8000 else c_seq s1 in
  (mkC now seq, (to_signed 64 now, seq)).
(** time.go:82-87 clockSequence. *)
Definition clockSequence (s : cstate) (rnd : N) : cstate * N :=
  let s1 := if c_seq s =? 0 then setClockSequence s (-1) rnd else s in
  (s1, N.land (c_seq s1) 0x3fff).

(** time.go:112-117 Time, 121-123 ClockSequence. *)
Definition Time (u : uuid) : Z :=
  Z.of_N (N.lor (N.lor (unbe (part u 0 4)) (N.shiftl (unbe (part u 4 6)) 32))
                (N.shiftl (N.land (unbe (part u 6 8)) 0xfff) 48)).
Definition ClockSequence (u : uuid) : N := N.land (unbe (part u 8 10)) 0x3fff.

(** What an application may call, with the wall clock and the random bytes it meets: GetTime, SetClockSequence and
    ClockSequence (time.go:45-49, 76-80, 91-95). *)
Inductive ccall := CGet (nano : Z) (rnd : N) | CSet (seq : Z) (rnd : N) | CSeq (rnd : N).
Definition cstep (s : cstate) (c : ccall) : cstate * list (Z * N) :=
  match c with
  | CGet nano rnd => let (s', r) := getTime s nano rnd in (s', [r])
  | CSet seq rnd => (setClockSequence s seq rnd, [])
  | CSeq rnd => (fst (clockSequence s rnd), [])
  end.
Definition cstate_after (h : list ccall) : cstate := fold_left (fun s c => fst (cstep s c)) h c_init.
(** The readings of a history, in order. *)
Fixpoint readings (s : cstate) (h : list ccall) : list (Z * N) :=
  match h with
  | [] => []
  | c :: h' => let (s', r) := cstep s c in r ++ readings s' h'
  end.
