(** Model of the buffers in which a host instance receives frames: go/transport/wasmrs/host/instance.go:214-218, 230-252 with sync.Pool and bytes.Buffer, and the
    slices of them that recvOne hands on (frames.RequestPayload.Decode and frames.Payload.Decode do not copy, request_payload.go:48-68, payload.go:34-51; the goroutines
    of instance.go:305 and alike, the subscribers of OnNext, and mesh.go:263-293 hold them).  Code only; no proofs.

    From their documentation: Pool.Get returns any buffer of the pool or a new one, and the pool may drop buffers at any time; a bytes.Buffer that is Reset keeps its
    array, and Write uses it if the bytes fit, otherwise it allocates one that is at least large enough (here also for no bytes at all).  hostSend's round for one frame is one step; guests call it one at a
    time. *)
From Coq Require Import List Bool Arith NArith.
From Verif Require Import Base.
Open Scope nat_scope.
Import ListNotations.

(** An array, with the number of the frame that was last written to it. *)
Record array := mkArray { a_bytes : bytes; a_frame : nat }.
(** A bytes.Buffer: its array, if any, and its length. *)
Record rbuf := mkBuf { b_array : option nat; b_len : nat }.
(** A slice handed on: where it is, and for the record what it was and of which frame. *)
Record view := mkView { v_array : nat; v_off : nat; v_len : nat; v_bytes : bytes; v_frame : nat }.

(** pool: the buffers in the pool.  chan: those in recvCh.  cur: the one recvLoop works on.  sent: what hostSend was given, frame by frame; handled: what recvOne was
    given. *)
Record rstate := mkR {
  r_arrays : list array; r_bufs : list rbuf; r_pool : list nat; r_chan : list nat; r_cur : option nat; r_views : list view; r_sent : list bytes; r_handled : list bytes }.
Definition r_new : rstate := mkR [] [] [] [] None [] [] [].

Inductive raction :=
| RSend (d : bytes) (pick : option nat) (extra : nat)    (* hostSend gets a buffer - one of the pool, or new - and writes d to it; [extra]: capacity beyond need *)
| RTake                                                  (* recvLoop takes a buffer and calls recvOne *)
| RDeliver (off n : nat)                                 (* recvOne hands on a slice *)
| RDone                                                  (* recvOne returns *)
| RDrop (i : nat)                                        (* the pool drops a buffer *)
| RPoke (v : nat) (off : nat) (d : bytes).               (* who has a slice writes to it, mesh.go:264-267 *)

Definition upd {A} (l : list A) (i : nat) (x : A) : list A := firstn i l ++ x :: skipn (S i) l.
Definition del {A} (l : list A) (i : nat) : list A := firstn i l ++ skipn (S i) l.
(** Bytes written over others from a place on. *)
Definition patch (l : bytes) (off : nat) (d : bytes) : bytes := firstn off l ++ d ++ skipn (off + length d) l.
Definition slice (l : bytes) (off n : nat) : bytes := firstn n (skipn off l).

(** bytes.Buffer's Bytes. *)
Definition contents (s : rstate) (b : nat) : bytes :=
  match nth_error (r_bufs s) b with
  | Some (mkBuf (Some a) n) => match nth_error (r_arrays s) a with Some x => firstn n (a_bytes x) | None => [] end
  | _ => []
  end.

(** Pool.Get, instance.go:238; [None]: no such buffer. *)
Definition get_buf (s : rstate) (pick : option nat) : option (rstate * nat) :=
  match pick with
  | None => Some (mkR (r_arrays s) (r_bufs s ++ [mkBuf None 0]) (r_pool s) (r_chan s) (r_cur s) (r_views s) (r_sent s) (r_handled s), length (r_bufs s))
  | Some i => match nth_error (r_pool s) i with
              | Some b => Some (mkR (r_arrays s) (r_bufs s) (del (r_pool s) i) (r_chan s) (r_cur s) (r_views s) (r_sent s) (r_handled s), b)
              | None => None
              end
  end.
(** Reset and Write, instance.go:239-240. *)
Definition write_buf (s : rstate) (b : nat) (d : bytes) (extra : nat) : rstate :=
  let fresh := mkR (r_arrays s ++ [mkArray (d ++ repeat 0%N extra) (length (r_sent s))]) (upd (r_bufs s) b (mkBuf (Some (length (r_arrays s))) (length d)))
                 (r_pool s) (r_chan s) (r_cur s) (r_views s) (r_sent s) (r_handled s) in
  match nth_error (r_bufs s) b with
  | Some (mkBuf (Some a) _) =>
    match nth_error (r_arrays s) a with
    | Some x => if length d <=? length (a_bytes x)
                then mkR (upd (r_arrays s) a (mkArray (patch (a_bytes x) 0 d) (length (r_sent s)))) (upd (r_bufs s) b (mkBuf (Some a) (length d)))
                       (r_pool s) (r_chan s) (r_cur s) (r_views s) (r_sent s) (r_handled s)
                else fresh
    | None => fresh
    end
  | _ => fresh
  end.

Definition rstep (s : rstate) (a : raction) : option rstate :=
  match a with
  (* 237-241 *)
  | RSend d pick extra =>
    match get_buf s pick with
    | Some (s1, b) => let s2 := write_buf s1 b d extra in Some (mkR (r_arrays s2) (r_bufs s2) (r_pool s2) (r_chan s2 ++ [b]) (r_cur s2) (r_views s2) (r_sent s2 ++ [d]) (r_handled s2))
    | None => None
    end
  (* 247-248 *)
  | RTake =>
    match r_cur s, r_chan s with
    | None, b :: q => Some (mkR (r_arrays s) (r_bufs s) (r_pool s) q (Some b) (r_views s) (r_sent s) (r_handled s ++ [contents s b]))
    | _, _ => None
    end
  | RDeliver off n =>
    match r_cur s with
    | None => None
    | Some b =>
      match nth_error (r_bufs s) b with
      | Some (mkBuf (Some x) m) =>
        if off + n <=? m
        then Some (mkR (r_arrays s) (r_bufs s) (r_pool s) (r_chan s) (r_cur s) (r_views s ++ [mkView x off n (slice (contents s b) off n) (length (r_handled s) - 1)]) (r_sent s) (r_handled s))
        else None
      | _ => None
      end
    end
  (* 249-250 *)
  | RDone =>
    match r_cur s with
    | None => None
    | Some b => Some (mkR (r_arrays s) (match nth_error (r_bufs s) b with Some x => upd (r_bufs s) b (mkBuf (b_array x) 0) | None => r_bufs s end)
                        (r_pool s ++ [b]) (r_chan s) None (r_views s) (r_sent s) (r_handled s))
    end
  | RDrop i => match nth_error (r_pool s) i with Some _ => Some (mkR (r_arrays s) (r_bufs s) (del (r_pool s) i) (r_chan s) (r_cur s) (r_views s) (r_sent s) (r_handled s)) | None => None end
  | RPoke v off d =>
    match nth_error (r_views s) v with
    | Some w =>
      if off + length d <=? v_len w
      then match nth_error (r_arrays s) (v_array w) with
           | Some x => Some (mkR (upd (r_arrays s) (v_array w) (mkArray (patch (a_bytes x) (v_off w + off) d) (a_frame x))) (r_bufs s) (r_pool s) (r_chan s) (r_cur s) (r_views s) (r_sent s) (r_handled s))
           | None => None
           end
      else None
    | None => None
    end
  end.
Fixpoint rruns (s : rstate) (l : list raction) : option rstate := match l with [] => Some s | a :: l' => match rstep s a with Some s' => rruns s' l' | None => None end end.

(** What the holder of a slice reads now. *)
Definition reads (s : rstate) (w : view) : bytes := match nth_error (r_arrays s) (v_array w) with Some x => slice (a_bytes x) (v_off w) (v_len w) | None => [] end.
