(** Model of go/operations/operatons.go: the binary operation list. *)
From Coq Require Import List NArith Bool.
From Verif Require Import Base.
Import ListNotations.
Open Scope N_scope.

(** go/operations/operatons.go:10-16 Operation. Strings are their bytes. *)
Record operation := mkOp { op_index : N; op_type : N; op_dir : N; op_ns : bytes; op_name : bytes }.

(** go/operations/operatons.go:63 Magic. *)
Definition Magic : bytes := [0x00; 0x77; 0x72; 0x73].

(** go/operations/operatons.go:64,75: the two errors returned. *)
Inductive ops_error := ErrInvalidMagicNumber | ErrUnknownVersion (v : N).

(** ToBytes returns no error. *)
Inductive no_err := .

(** go/operations/operatons.go:67 [bytes.Equal]. *)
Fixpoint bytes_equal (a b : bytes) : bool :=
  match a, b with
  | [], [] => true
  | x :: a', y :: b' => (x =? y) && bytes_equal a' b'
  | _, _ => false
  end.

(** Go [buf[i]]: panics out of range. *)
Definition index {E} (buf : bytes) (i : nat) : outcome E N :=
  match nth_error buf i with Some b => Ret b | None => Panic end.

(** go/operations/operatons.go:82-101: one iteration, returning the entry and the remaining buffer. The
    addition in [buf[2+reservedLen:]] is done in 16 bits, because reservedLen is a uint16. *)
Definition read_op (buf : bytes) : outcome ops_error (operation * bytes) :=
  do opType <- index buf 0 ;
  do dir <- index buf 1 ;
  do b2 <- slice_from buf 2 ;
  do id <- get_be 4 b2 ;
  do b6 <- slice_from buf 6 ;
  do nsLen <- get_be 2 b6 ;
  do buf <- slice_from buf 8 ;
  do ns <- slice_to buf nsLen ;
  do buf <- slice_from buf nsLen ;
  do opLen <- get_be 2 buf ;
  do buf <- slice_from buf 2 ;
  do op <- slice_to buf opLen ;
  do buf <- slice_from buf opLen ;
  do reservedLen <- get_be 2 buf ;
  do buf <- slice_from buf (u16 (2 + reservedLen)) ;
  Ret (mkOp id opType dir ns op, buf).

(** go/operations/operatons.go:81-102: the loop. [fuel] stands for the length of the buffer: every iteration
    reads at least ten bytes, so an iteration that finds no fuel would find no bytes and panic. *)
Fixpoint read_ops (fuel : nat) (n : N) (buf : bytes) : outcome ops_error (list operation) :=
  if n =? 0 then Ret []
  else match fuel with
       | O => Panic
       | S fuel' =>
         do (o, buf') <- read_op buf ;
         do t <- read_ops fuel' (n - 1) buf' ;
         Ret (o :: t)
       end.

(** go/operations/operatons.go:66-105 FromBytes. Simplifications: [make(Table, numOps)]
    always succeeds; the buffer has no spare capacity, so that [buf[0:4]] panics on a shorter buffer. *)
Definition FromBytes (buf : bytes) : outcome ops_error (list operation) :=
  do magic <- slice_to buf 4 ;
  if negb (bytes_equal magic Magic) then Fail ErrInvalidMagicNumber
  else
    do buf <- slice_from buf 4 ;
    do version <- get_be 2 buf ;
    if negb (version =? 1) then Fail (ErrUnknownVersion version)
    else
      do buf <- slice_from buf 2 ;
      do numOps <- get_be 4 buf ;
      do buf <- slice_from buf 4 ;
      read_ops (length buf) numOps buf.

(** go/operations/operatons.go:108-111: the announced size, in 32-bit arithmetic. *)
Definition ops_size (t : list operation) : N :=
  fold_left (fun sz o => u32 (sz + u32 (12 + len (op_ns o) + len (op_name o)))) t 10.

(** [buf = buf[n:]] where [buf] is [payload[off:]]. *)
Definition advance (payload : bytes) (off n : N) : outcome no_err N :=
  if off + n <=? len payload then Ret (off + n) else Panic.

(** go/operations/operatons.go:122-147: one iteration, on payload and the offset of buf in it. *)
Definition write_op (payload : bytes) (off : N) (o : operation) : outcome no_err (bytes * N) :=
  do p <- put_at payload off [u8 (op_type o)] ;
  do p <- put_at p (off + 1) [u8 (op_dir o)] ;
  do p <- put_at p (off + 2) (be 4 (op_index o)) ;
  do off <- advance p off 6 ;
  let nsLen := u16 (len (op_ns o)) in
  do p <- put_at p off (be 2 nsLen) ;
  do off <- advance p off 2 ;
  do p <- copy_at p off (op_ns o) ;
  do off <- advance p off nsLen ;
  let operLen := u16 (len (op_name o)) in
  do p <- put_at p off (be 2 operLen) ;
  do off <- advance p off 2 ;
  do p <- copy_at p off (op_name o) ;
  do off <- advance p off operLen ;
  do p <- put_at p off (be 2 0) ;
  do off <- advance p off 2 ;
  Ret (p, off).

(** go/operations/operatons.go:122-147: the loop. *)
Fixpoint write_ops (payload : bytes) (off : N) (t : list operation) : outcome no_err bytes :=
  match t with
  | [] => Ret payload
  | o :: t' => do (p, off) <- write_op payload off o ; write_ops p off t'
  end.

(** go/operations/operatons.go:107-150 ToBytes. *)
Definition ToBytes (t : list operation) : outcome no_err bytes :=
  let payload := repeat 0 (N.to_nat (ops_size t)) in
  do p <- copy_at payload 0 Magic ;
  do off <- advance p 0 4 ;
  do p <- put_at p off (be 2 1) ;
  do off <- advance p off 2 ;
  do p <- put_at p off (be 4 (u32 (len t))) ;
  do off <- advance p off 4 ;
  write_ops p off t.
