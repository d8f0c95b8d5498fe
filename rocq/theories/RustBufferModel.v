(** Model of how frames cross the memory of a guest when host or guest is written in Rust.  Code only; no proofs.

    Modelled: rust/crates/wasmrs-guest/src/guest.rs init (112-145, the host buffer), send_frame (163-188), spawn_writer (190-196), read_frames (198-212),
    send_host_frame (236-261); rust/crates/wasmrs-wasmtime/src/memory.rs read_frame and write_bytes_to_memory (21-55), engine_provider.rs write_frame (115-132) and the
    sizes and the type in init (156-175), store.rs do_host_send (29-40), wasmrs_wasmtime.rs linker_send (42-69).  The Go sides are those of [BatchModel].
    Not modelled: what is done with a decoded frame; the guest buffer never moves, since nothing is written to it by the guest. *)
From Coq Require Import List NArith Bool.
From Verif Require Import Base FramesModel BatchModel RustFramesModel RustCallModel.
Import ListNotations.
Open Scope N_scope.

(** ** The Rust guest receives *)

(** guest.rs:198-212: the cursor is at [pos] of the buffer, with [rest] behind it.  [fuel] only makes the recursion structural: every round takes at least three
    bytes. *)
Fixpoint read_loop (fuel : nat) (pos read_until : N) (rest : bytes) : option (list bytes) :=
  match fuel with
  | O => None
  | S fuel' =>
    if pos <? read_until then
      match read_frame rest with
      | Some (f, rest') => match read_loop fuel' (pos + 3 + len f) read_until rest' with Some fs => Some (f :: fs) | None => None end
      | None => None
      end
    else Some []
  end.
Definition read_frames (buffer : bytes) (read_until : N) : option (list bytes) := read_loop (S (length buffer)) 0 read_until buffer.

(** What becomes of a frame: it is given to the socket, or an error frame for stream 0 with this text goes to the host. *)
Inductive did := Handled (g : rframe) | Complained (msg : bytes).
(** guest.rs:167. *)
Definition unreadable : bytes := [67; 111; 117; 108; 100; 32; 110; 111; 116; 32; 114; 101; 97; 100; 32; 108; 111; 99; 97; 108; 32; 98; 117; 102; 102; 101; 114].   (* "Could not read local buffer" *)
(** guest.rs:163-188; the bytes of a frame that cannot be decoded are passed over. *)
Fixpoint decode_all (l : list bytes) : outcome no_error (list did) :=
  match l with
  | [] => Ret []
  | b :: l' =>
    match rframe_decode b with
    | Ret g => do ds <- decode_all l' ; Ret (Handled g :: ds)
    | Fail _ => do ds <- decode_all l' ; Ret (Complained undecodable :: ds)
    | Panic => Panic
    end
  end.
Definition send_frame (buffer : bytes) (read_until : N) : outcome no_error (list did) :=
  match read_frames buffer read_until with
  | None => Ret [Complained unreadable]
  | Some l => decode_all l
  end.

(** ** The Rust guest sends *)

(** A Vec<u8>: its bytes and its capacity. *)
Record vec := mkVec { v_bytes : bytes; v_cap : N }.
(** std::io::Cursor<&mut Vec<u8>>, write_all at a position within the vector: overwrites, then extends.  A vector that outgrows its capacity is allocated anew with at
    least twice the capacity. *)
Definition write_at (v : vec) (pos : N) (src : bytes) : vec :=
  let b := firstn (N.to_nat pos) (v_bytes v) ++ src ++ skipn (N.to_nat (pos + len src)) (v_bytes v) in
  mkVec b (if len b <=? v_cap v then v_cap v else N.max (2 * v_cap v) (len b)).

(** HOST_BUFFER, and whether it has been allocated anew since init told the host where it is (guest.rs:131-144). *)
Record hbuf := mkHbuf { h_vec : vec; h_moved : bool }.
(** guest.rs:131-136: [resize] of an empty vector; the smallest capacity of a vector of bytes is 8. *)
Definition host_buffer (size : N) : hbuf := mkHbuf (mkVec (repeat 0 (N.to_nat size)) (if size =? 0 then 0 else N.max 8 size)) false.

(** guest.rs:243-253: the loop; [pop] takes the last payload, so the list is given in reverse.  The cursor is always at [total]. *)
Fixpoint fill (max total : N) (v : vec) (l : list bytes) : vec * N * list bytes :=
  match l with
  | [] => (v, total, [])
  | p :: l' =>
    if max <? total + u32 (len p) then (v, total, l)
    else fill max (total + (3 + u32 (len p))) (write_at (write_at v total (to_u24_bytes (u32 (len p)))) (total + 3) p) l'
  end.
(** guest.rs:236-261: the buffer, the size given to the host, and the payloads returned. *)
Definition send_host_frame (st : hbuf) (payloads : list bytes) : hbuf * N * list bytes :=
  let '(v, total, l) := fill (v_cap (h_vec st)) 0 (h_vec st) (rev payloads) in
  (mkHbuf v (h_moved st || negb (v_cap v =? v_cap (h_vec st))), total, rev l).

(** What lies at the address the host was told: the buffer, or, once that has been allocated anew, whatever is there now.  A host that reads beyond the memory reads
    nothing. *)
Definition host_sees (st : hbuf) (elsewhere : bytes) (size : N) : bytes :=
  let m := if h_moved st then elsewhere else v_bytes (h_vec st) in
  if size <=? len m then firstn (N.to_nat size) m else [].

(** guest.rs:190-196: the payloads returned are dropped.  With each frame comes what lies at the old address when it is sent, should the buffer have moved. *)
Fixpoint writer (st : hbuf) (l : list (rframe * bytes)) : outcome rerr (hbuf * list bytes) :=
  match l with
  | [] => Ret (st, [])
  | (g, elsewhere) :: l' =>
    do b <- rframe_encode g ;
    let '(st', size, _) := send_host_frame st [b] in
    do r <- writer st' l' ;
    Ret (fst r, host_sees st' elsewhere size :: snd r)
  end.

(** ** The Rust host *)

(** engine_provider.rs:169 (what the guest is told) and socket/buffer.rs:12 (what the host takes the size of the guest's buffer to be: store.rs:23-27 never sets it). *)
Definition told_size : N := 1024.
Definition taken_size : N := 4092.
(** engine_provider.rs:115-132 and memory.rs:33-55: the memory after it is written, and the position given to the guest.  Memory that ends before what is written would
    be written beyond its end; that is left out of the model. *)
Definition host_write (mem : bytes) (start : N) (b : bytes) : outcome no_error (bytes * N) :=
  let buffer := to_u24_bytes (u32 (len b)) ++ b in
  if len buffer <=? taken_size then
    if start + len buffer <=? len mem then Ret (firstn (N.to_nat start) mem ++ buffer ++ skipn (N.to_nat (start + len buffer)) mem, len buffer)
    else Panic
  else Panic.
(** The guest's buffer within its memory. *)
Definition guest_buffer (mem : bytes) (start : N) : bytes := firstn (N.to_nat told_size) (skipn (N.to_nat start) mem).

(** wasmrs_wasmtime.rs:42-69 and store.rs:29-40, given the bytes up to the position the guest calls with: one frame is read, and the rest is passed over.  A frame that
    cannot be read is an error for the guest. *)
Definition host_receive (seen : bytes) : outcome rerr (option rframe) :=
  match read_frame seen with
  | Some (b, _) => do g <- rframe_decode b ; Ret (Some g)
  | None => Ret None
  end.

(** ** Starting a guest *)

(** The types of __wasmrs_init: with a result in Go (guest.go:46, a bool is an i32), without one in Rust (codegen/src/rust/default-visitor.ts:28). *)
Inductive valtype := I32.
Definition signature : Type := list valtype * list valtype.
Definition go_init : signature := ([I32; I32; I32], [I32]).
Definition rust_init : signature := ([I32; I32; I32], []).
Definition valtypes_eqb (a b : list valtype) : bool := Nat.eqb (length a) (length b).
(** engine_provider.rs:164-168: get_typed_func fails on any other type than the one asked for. *)
Definition rust_host_starts (s : signature) : bool := valtypes_eqb (fst s) [I32; I32; I32] && valtypes_eqb (snd s) [].
