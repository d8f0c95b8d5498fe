(** Model of request/response calls between two peers, from RequestResponse to the caller's callbacks: handler/caller.go:33-42 (and alike
    host/caller.go:31-40, guest/caller.go:38-47), proxy/mono.go, handler/handler.go (and alike) with the dispatcher of [DispatchModel], the
    registries of [LookupModel], the stream ids of [StreamIdModel], the frames of [FramesModel] and the processor of [MonoModel].
    Code only; no proofs.

    Both peers call and answer.  Between them are two queues of encoded frames (what carries them is the subject of Batch and Tcp).  Everything
    that can happen is a move; moves of the two peers, of user code, of handlers and of the goroutines started by the dispatcher come in any order.
    Simplifications: a move is atomic, in particular Subscribe (its frame is sent last, so that no answer can come before it has subscribed) and
    the handling of one frame; the mono of a handler concludes at most once (which is C25), at any time or never, with any outcome. *)
From Coq Require Import List NArith Bool.
From Verif Require Import Base FramesModel InvokeModel LookupModel StreamIdModel MonoModel ProxyModel DispatchModel.
Import ListNotations.
Open Scope N_scope.

Definition other (s : side) : side := match s with Client => Server | Server => Client end.
Definition side_eqb (a b : side) : bool := match a, b with Client, Client | Server, Server => true | _, _ => false end.

Section Call.
Context {H : Type}.
Context (w : side -> site).                           (* which of the three dispatchers a side has *)
Context (tbl : side -> ikind -> list (option H)).     (* its handlers *)

(** proxy/mono.go:25-33 streamMono: the fields of the request that vary, [subscribed], and the processor. *)
Record call := mkCall { c_sid : N; c_data : bytes; c_md : bytes; c_subscribed : bool; c_proc : proc pay bytes }.
(** A handler that has been run by handleRequestResponse, with what it was given, and the outcome of its mono. *)
Record run := mkRun { r_handler : H; r_sid : N; r_data : bytes; r_md : bytes; r_out : option (pay + bytes) }.
(** handler.go:20-41 Handler: the counter, guestStreams and hostStreams (streams being named by the number of the call); all calls made so far; the
    goroutines handler.go:133 that have not got to what they do; all handlers run so far. *)
Record peer := mkPeer { p_counter : N; p_odd : lookup nat; p_even : lookup nat; p_calls : list call; p_tasks : list (act H nat); p_runs : list run }.
(** The two peers, and the frames on their way to each. *)
Record net := mkNet { n_peer : side -> peer; n_wire : side -> list bytes }.

Definition new_peer : peer := mkPeer 0 empty_lookup empty_lookup [] [] [].
Definition net_create : net := mkNet (fun _ => new_peer) (fun _ => []).

Definition set_peer (st : net) (s : side) (p : peer) : net := mkNet (fun t => if side_eqb t s then p else n_peer st t) (n_wire st).
Definition set_wire (st : net) (s : side) (l : list bytes) : net := mkNet (n_peer st) (fun t => if side_eqb t s then l else n_wire st t).
Definition post (st : net) (s : side) (f : frame) : option net :=
  match frame_bytes f with Ret bs => Some (set_wire st (other s) (n_wire st (other s) ++ [bs])) | _ => None end.

(** handler.go:79-101 *)
Definition register (p : peer) (sid : N) (k : nat) : option peer :=
  if N.odd sid
  then match Add (p_odd p) sid k with Some l => Some (mkPeer (p_counter p) l (p_even p) (p_calls p) (p_tasks p) (p_runs p)) | None => None end
  else match Add (p_even p) sid k with Some l => Some (mkPeer (p_counter p) (p_odd p) l (p_calls p) (p_tasks p) (p_runs p)) | None => None end.
Definition remove (p : peer) (sid : N) : option peer :=
  if N.odd sid
  then match Remove (p_odd p) sid with Some l => Some (mkPeer (p_counter p) l (p_even p) (p_calls p) (p_tasks p) (p_runs p)) | None => None end
  else match Remove (p_even p) sid with Some l => Some (mkPeer (p_counter p) (p_odd p) l (p_calls p) (p_tasks p) (p_runs p)) | None => None end.
(** Get always returns (C12_every_history). *)
Definition get_stream (p : peer) (sid : N) : option nat := match Get (if N.odd sid then p_odd p else p_even p) sid with Some r => r | None => None end.

Definition set_call (p : peer) (k : nat) (f : call -> call) : peer :=
  match nth_error (p_calls p) k with
  | Some c => mkPeer (p_counter p) (p_odd p) (p_even p) (firstn k (p_calls p) ++ f c :: skipn (S k) (p_calls p)) (p_tasks p) (p_runs p)
  | None => p
  end.
Definition on_proc (q : pcall pay bytes) (c : call) : call := mkCall (c_sid c) (c_data c) (c_md c) (c_subscribed c) (MonoModel.pstep (c_proc c) q).

(** caller.go:34-41 *)
Definition request_of (c : call) : frame := FramesModel.FRequest (mkRequest FrameTypeRequestResponse (c_sid c) (c_md c) (c_data c) false true 1).
(** handler.go:246-262 *)
Definition answer_of (sid : N) (o : pay + bytes) : frame :=
  match o with
  | inl (data, md) => FPayload (mkPayload sid md data false true true)
  | inr msg => FramesModel.FError sid 0 msg
  end.

(** What a dispatcher does with a frame: handler.go HandleFrame on the parsed frame, or the host's and the guest's receivers.  All streams are
    streamMonos. *)
Definition received (s : side) (p : peer) (bs : bytes) : outcome derr (list (act H nat)) :=
  match w s with
  | Peer => match frame_parse bs with Ret (Some f) => HandleFrame (tbl s) (get_stream p) (fun _ => SMono) f | Ret None => Ret [] | _ => Panic end
  | _ => recv_one (tbl s) (get_stream p) (fun _ => SMono) (w s) bs
  end.

(** proxy/mono.go:42-52; the goroutine's actions wait their turn.  [None]: what does not happen with request/response only (proved). *)
Definition perform (p : peer) (a : act H nat) : option peer :=
  match a with
  | ACall k (OnNext d m) => Some (set_call p k (on_proc (PSuccess (d, m))))
  | ACall k OnComplete => Some p
  | ACall k (OnError msg) => Some (set_call p k (on_proc (PError msg)))
  | ARemove sid => remove p sid
  | ASend _ | ARun RR _ _ _ _ _ _ => Some (mkPeer (p_counter p) (p_odd p) (p_even p) (p_calls p) (p_tasks p ++ [a]) (p_runs p))
  | _ => None
  end.
Fixpoint perform_all (p : peer) (l : list (act H nat)) : option peer :=
  match l with [] => Some p | a :: l' => match perform p a with Some p' => perform_all p' l' | None => None end end.

Inductive move :=
| MCall (s : side) (data md : bytes)                  (* user code calls RequestResponse *)
| MSubscribe (s : side) (k : nat)                     (* user code subscribes the mono of its k-th call *)
| MReceive (s : side)                                 (* the dispatcher takes the next frame *)
| MTask (s : side) (i : nat)                          (* a goroutine goes on *)
| MConclude (s : side) (i : nat) (o : pay + bytes).   (* the mono of the i-th run concludes *)

Definition cut {A} (i : nat) (l : list A) : option (list A * A * list A) :=
  match nth_error l i with Some x => Some (firstn i l, x, skipn (S i) l) | None => None end.

Definition do_move (st : net) (m : move) : option net :=
  match m with
  (* caller.go:33-42, proxy/mono.go:12-23 *)
  | MCall s data md =>
    let p := n_peer st s in
    match Next 2 s (p_counter p) with
    | Some (counter, (sid, _)) =>
      Some (set_peer st s (mkPeer counter (p_odd p) (p_even p) (p_calls p ++ [mkCall sid data md false new_processor]) (p_tasks p) (p_runs p)))
    | None => None
    end
  (* proxy/mono.go:66-72 *)
  | MSubscribe s k =>
    match nth_error (p_calls (n_peer st s)) k with
    | None => None
    | Some c =>
      match register (n_peer st s) (c_sid c) k with
      | None => None
      | Some p =>
        post (set_peer st s (set_call p k (fun c => mkCall (c_sid c) (c_data c) (c_md c) true (MonoModel.pstep (c_proc c) PSubscribe)))) s (request_of c)
      end
    end
  | MReceive s =>
    match n_wire st s with
    | [] => None
    | bs :: rest =>
      match received s (n_peer st s) bs with
      | Ret l => match perform_all (n_peer st s) l with Some p => Some (set_wire (set_peer st s p) s rest) | None => None end
      | Fail _ => Some (set_wire st s rest)
      | Panic => None
      end
    end
  | MTask s i =>
    let p := n_peer st s in
    match cut i (p_tasks p) with
    | Some (l, ASend f, q) => post (set_peer st s (mkPeer (p_counter p) (p_odd p) (p_even p) (p_calls p) (l ++ q) (p_runs p))) s f
    | Some (l, ARun _ h sid data md _ _, q) =>
      Some (set_peer st s (mkPeer (p_counter p) (p_odd p) (p_even p) (p_calls p) (l ++ q) (p_runs p ++ [mkRun h sid data md None])))
    | _ => None
    end
  | MConclude s i o =>
    let p := n_peer st s in
    match cut i (p_runs p) with
    | Some (l, mkRun h sid data md None, q) =>
      post (set_peer st s (mkPeer (p_counter p) (p_odd p) (p_even p) (p_calls p) (p_tasks p) (l ++ mkRun h sid data md (Some o) :: q))) s (answer_of sid o)
    | _ => None
    end
  end.
Fixpoint do_moves (st : net) (ms : list move) : option net :=
  match ms with [] => Some st | m :: ms' => match do_move st m with Some st' => do_moves st' ms' | None => None end end.
End Call.
Arguments run : clear implicits.
Arguments peer : clear implicits.
Arguments net : clear implicits.
