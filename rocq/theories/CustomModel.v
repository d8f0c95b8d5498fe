(** Model of go/transport/wasmrs/customsections/customsections.go.  Code only; no proofs.

    The readers are the bytes not read yet.  Out of the code's dependencies, modelled from their documentation: bytes.Reader,
    io.ReadFull, io.CopyN, unicode/utf8 Valid, and DecodeUint32 of github.com/tetratelabs/wabin/leb128 (not in /repo: taken to be the
    unsigned 32-bit LEB128 of the WebAssembly specification, at most five bytes, unused bits of the fifth zero).  Errors are named
    by the place they come from instead of their text.  Memory for names and sections is taken to suffice. *)
From Coq Require Import List NArith Bool.
From Verif Require Import Base OperationsModel.
Import ListNotations.
Open Scope N_scope.

Inductive cs_err := ErrInvalidMagicNumber | ErrInvalidVersion | ErrSectionSize | ErrNameSize | ErrName | ErrNotUtf8 | ErrMalformed | ErrRead | ErrSkip | ErrLength.

(** wabin leb128.DecodeUint32: [left] bytes may still come, [i] are read, [s] is the shift. *)
Fixpoint decode_loop (left : nat) (i s ret : N) (r : bytes) : option (N * N * bytes) :=
  match left with
  | O => None
  | S left' =>
    match r with
    | [] => None
    | b :: r' =>
      if b <? 0x80 then
        if (Nat.eqb left 1) && (0 <? N.land b 0xf0) then None else Some (N.lor ret (u32 (N.shiftl b s)), i + 1, r')
      else decode_loop left' (i + 1) (s + 7) (N.lor ret (u32 (N.shiftl (N.land b 0x7f) s))) r'
    end
  end.
Definition DecodeUint32 (r : bytes) : option (N * N * bytes) := decode_loop 5 0 0 0 r.

(** unicode/utf8 Valid, with its table of first bytes written out. *)
Definition cont (b : N) : bool := (0x80 <=? b) && (b <=? 0xBF).
Fixpoint utf8_valid (p : bytes) : bool :=
  match p with
  | [] => true
  | a :: p1 =>
    if a <? 0x80 then utf8_valid p1
    else if a <? 0xC2 then false
    else if a <=? 0xDF then match p1 with b :: p2 => cont b && utf8_valid p2 | _ => false end
    else if a <=? 0xEF then
      match p1 with
      | b :: c :: p3 => ((if a =? 0xE0 then 0xA0 else 0x80) <=? b) && (b <=? (if a =? 0xED then 0x9F else 0xBF)) && cont c && utf8_valid p3
      | _ => false end
    else if a <=? 0xF4 then
      match p1 with
      | b :: c :: d :: p4 => ((if a =? 0xF0 then 0x90 else 0x80) <=? b) && (b <=? (if a =? 0xF4 then 0x8F else 0xBF)) && cont c && cont d && utf8_valid p4
      | _ => false end
    else false
  end.

(** io.ReadFull into a buffer of n bytes. *)
Definition read_full (n : N) (r : bytes) : option (bytes * bytes) :=
  if n <=? len r then Some (firstn (N.to_nat n) r, skipn (N.to_nat n) r) else None.
(** bytes.Reader.Read into a buffer of n zero bytes: an error if nothing is left, otherwise as much as there is. *)
Definition read_some (n : N) (r : bytes) : option (bytes * bytes) :=
  match r with
  | [] => None
  | _ => let got := firstn (N.to_nat n) r in Some (got ++ repeat 0 (N.to_nat (n - len got)), skipn (N.to_nat n) r)
  end.
(** io.CopyN(io.Discard, r, n). *)
Definition copy_discard (n : N) (r : bytes) : option bytes := if n <=? len r then Some (skipn (N.to_nat n) r) else None.

(** customsections.go:103-119 decodeUTF8: the name, the bytes taken (a uint32) and the rest. *)
Definition decodeUTF8 (r : bytes) : outcome cs_err (bytes * N * bytes) :=
  match DecodeUint32 r with
  | None => Fail ErrNameSize
  | Some (size, sizeOfSize, r1) =>
    match read_full size r1 with
    | None => Fail ErrName
    | Some (buf, r2) => if negb (utf8_valid buf) then Fail ErrNotUtf8 else Ret (buf, u32 (size + u32 sizeOfSize), r2)
    end
  end.

(** customsections.go:40-96: the loop; [wanted] is wantedNames, [sections] newest first.  [fuel] only makes the recursion
    structural: the loop takes at least a byte each time round, and Read gives it one more than there are. *)
Definition is_wanted (wanted : list bytes) (name : bytes) : bool := existsb (bytes_equal name) wanted.
Definition check_length (sectionSize start now : N) : outcome cs_err unit :=
  if negb (sectionSize =? start - now) then Fail ErrLength else Ret tt.
Fixpoint read_sections (fuel : nat) (wanted : list bytes) (sections : list (bytes * bytes)) (r : bytes) : outcome cs_err (list (bytes * bytes)) :=
  match fuel with
  | O => Panic
  | S fuel' =>
    match r with
    | [] => Ret sections
    | sectionID :: r1 =>
      match DecodeUint32 r1 with
      | None => Fail ErrSectionSize
      | Some (sectionSize, _, r2) =>
        if sectionID =? 0 then
          do (name, nameSize, r3) <- decodeUTF8 r2 ;
          if sectionSize <? nameSize then Fail ErrMalformed
          else
            let limit := sectionSize - nameSize in
            if is_wanted wanted name then
              match read_some limit r3 with
              | None => Fail ErrRead
              | Some (data, r4) => do _ <- check_length sectionSize (len r2) (len r4) ; read_sections fuel' wanted ((name, data) :: sections) r4
              end
            else
              match copy_discard limit r3 with
              | None => Fail ErrSkip
              | Some r4 => do _ <- check_length sectionSize (len r2) (len r4) ; read_sections fuel' wanted sections r4
              end
        else
          match copy_discard sectionSize r2 with
          | None => Fail ErrSkip
          | Some r4 => do _ <- check_length sectionSize (len r2) (len r4) ; read_sections fuel' wanted sections r4
          end
      end
    end
  end.

(** customsections.go:20-99 Read. *)
Definition wasm_magic : bytes := [0x00; 0x61; 0x73; 0x6D].
Definition wasm_version : bytes := [0x01; 0x00; 0x00; 0x00].
Definition Read (data : bytes) (names : list bytes) : outcome cs_err (list (bytes * bytes)) :=
  match read_full 4 data with
  | None => Fail ErrInvalidMagicNumber
  | Some (buf, r) =>
    if negb (bytes_equal buf wasm_magic) then Fail ErrInvalidMagicNumber
    else match read_full 4 r with
         | None => Fail ErrInvalidVersion
         | Some (buf, r) =>
           if negb (bytes_equal buf wasm_version) then Fail ErrInvalidVersion
           else read_sections (S (length r)) names [] r
         end
  end.

(** A lookup in the returned map. *)
Fixpoint section_of (l : list (bytes * bytes)) (name : bytes) : option bytes :=
  match l with
  | [] => None
  | (n, d) :: l' => if bytes_equal n name then Some d else section_of l' name
  end.
