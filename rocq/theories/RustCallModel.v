(** Model of request/response calls between a Go host and a Rust guest: the Go side as in [CallModel] (its host, which numbers its requests as the
    server does), the Rust side from rust/crates/wasmrs/src/socket.rs and rust/crates/wasmrs-guest/src/{guest,server}.rs, the frames of
    [FramesModel] and [RustFramesModel].  Code only; no proofs.

    As in [CallModel] two queues of encoded frames lie between them (the Rust socket's unbounded channel with its one writer, guest.rs:190-196, keeps
    the order), and everything that can happen is a move; moves come in any order.
    Simplifications: a move is atomic (a guest runs on one thread); a handler's mono concludes at most once, at any time or never, with any outcome
    (a handler that fails at once, server.rs:72, concludes at once); only request/response is used. *)
From Coq Require Import List NArith Bool.
From Verif Require Import Base FramesModel InvokeModel LookupModel StreamIdModel MonoModel ProxyModel DispatchModel CallModel RustFramesModel RustOpsModel.
Import ListNotations.
Open Scope N_scope.

(** ** The Rust socket *)

(** What the receiving end of the oneshot channel holds (socket.rs:377-384): nothing yet, what was sent, or that the sender is gone. *)
Inductive rres := RPending | RGot (o : pay + N * bytes) | RDropped.
(** A call of request_response: its stream, its payload, whether the caller has dropped the receiving end, and what it holds. *)
Record rcall := mkRCall { rc_sid : N; rc_data : bytes; rc_md : bytes; rc_gone : bool; rc_res : rres }.

(** error.rs of wasmrs-guest: the text of Error::NoHandler. *)
Definition no_handler : bytes := [78; 111; 32; 104; 97; 110; 100; 108; 101; 114; 32; 102; 111; 117; 110; 100].   (* "No handler found" *)
(** socket.rs:156. *)
Definition no_data : bytes := [69; 114; 114; 111; 114; 32; 102; 114; 97; 109; 101; 32; 119; 105; 116; 104; 32; 110; 111; 32; 100; 97; 116; 97].   (* "Error frame with no data" *)
(** socket.rs:262, 273. *)
Definition invalid_n : bytes := [73; 110; 118; 97; 108; 105; 100; 32; 82; 101; 113; 117; 101; 115; 116; 78; 32; 40; 110; 61; 48; 41].   (* "Invalid RequestN (n=0)" *)
Definition missing_id : bytes := [82; 101; 113; 117; 101; 115; 116; 78; 32; 99; 97; 108; 108; 101; 100; 32; 102; 111; 114; 32; 109; 105; 115; 115; 105; 110; 103; 32; 83; 116; 114; 101; 97; 109; 32; 73; 68].   (* "RequestN called for missing Stream ID" *)
(** socket.rs:329. *)
Definition request_cancelled : bytes := [82; 101; 113; 117; 101; 115; 116; 32; 99; 97; 110; 99; 101; 108; 108; 101; 100].   (* "Request cancelled" *)
(** guest.rs:180. *)
Definition undecodable : bytes := [67; 111; 117; 108; 100; 32; 110; 111; 116; 32; 100; 101; 99; 111; 100; 101; 32; 102; 114; 97; 109; 101; 32; 100; 97; 116; 97].   (* "Could not decode frame data" *)
(** frames/mod.rs:251, 253. *)
Definition ApplicationError : N := 513.
Definition Canceled : N := 515.

Section Rust.
Context {H : Type}.
Context (tbl : list H).                               (* REQUEST_RESPONSE_HANDLERS, guest.rs:42 *)

(** WasmSocket (socket.rs:46-55): stream_index; handlers, by the number of the call; all calls made so far; the spawned tasks (socket.rs:180-187) whose
    mono is an error from the start, with its text; all handlers run so far, whose tasks wait for them. *)
Record rpeer := mkRPeer { rs_next : N; rs_handlers : list (N * nat); rs_calls : list rcall; rs_tasks : list (N * bytes); rs_runs : list (run H) }.

(** socket.rs:68-89 new, for a guest. *)
Definition new_socket : rpeer := mkRPeer 2 [] [] [] [].

(** SafeMap: insert, get and remove. *)
Definition map_remove (sid : N) (l : list (N * nat)) : list (N * nat) := filter (fun e => negb (fst e =? sid)) l.
Definition map_insert (sid : N) (k : nat) (l : list (N * nat)) : list (N * nat) := (sid, k) :: map_remove sid l.
Definition map_get (sid : N) (l : list (N * nat)) : option nat := match List.find (fun e => fst e =? sid) l with Some e => Some (snd e) | None => None end.

Definition set_rcall (p : rpeer) (k : nat) (f : rcall -> rcall) : rpeer :=
  match nth_error (rs_calls p) k with
  | Some c => mkRPeer (rs_next p) (rs_handlers p) (firstn k (rs_calls p) ++ f c :: skipn (S k) (rs_calls p)) (rs_tasks p) (rs_runs p)
  | None => p
  end.
Definition drop_handler (p : rpeer) (sid : N) : rpeer := mkRPeer (rs_next p) (map_remove sid (rs_handlers p)) (rs_calls p) (rs_tasks p) (rs_runs p).
Definition holds (r : rres) (c : rcall) : rcall := mkRCall (rc_sid c) (rc_data c) (rc_md c) (rc_gone c) r.

(** The call that waits under an id. *)
Definition waiting (p : rpeer) (sid : N) : option (nat * rcall) :=
  match map_get sid (rs_handlers p) with
  | Some k => match nth_error (rs_calls p) k with Some c => Some (k, c) | None => None end
  | None => None
  end.

(** socket.rs:373-385 request_response, with 96-98 next_stream_id (an AtomicU32) and 101-103 register_handler. *)
Definition rust_call (p : rpeer) (data md : bytes) : rpeer * rframe :=
  let sid := rs_next p in
  (mkRPeer (u32 (sid + 2)) (map_insert sid (length (rs_calls p)) (rs_handlers p)) (rs_calls p ++ [mkRCall sid data md false RPending]) (rs_tasks p) (rs_runs p),
   new_request_response sid (Some md) (Some data) 0).

(** server.rs:62-73 request_response and 132-141 get_process_handler: the handler, or the text of the error; [parse_metadata] panics. *)
Definition find_handler (md : bytes) : outcome unit (H + bytes) :=
  do index <- parse_metadata md ;
  Ret (match nth_error tbl (N.to_nat index) with Some h => inl h | None => inr no_handler end).

(** socket.rs:170-188 on_request_response. *)
Definition on_request_response (p : rpeer) (sid : N) (data md : bytes) : option rpeer :=
  match find_handler md with
  | Ret (inl h) => Some (mkRPeer (rs_next p) (rs_handlers p) (rs_calls p) (rs_tasks p) (rs_runs p ++ [mkRun h sid data md None]))
  | Ret (inr msg) => Some (mkRPeer (rs_next p) (rs_handlers p) (rs_calls p) (rs_tasks p ++ [(sid, msg)]) (rs_runs p))
  | _ => None
  end.

(** socket.rs:278-324 on_payload, for Handler::ReqRR. *)
Definition on_payload (p : rpeer) (sid : N) (next : bool) (data md : bytes) : rpeer :=
  match waiting p sid with
  | Some (k, c) =>
    let p := drop_handler p sid in
    if next then if rc_gone c then p else set_rcall p k (holds (RGot (inl (data, md)))) else set_rcall p k (holds RDropped)
  | None => p
  end.

(** socket.rs:326-342 on_cancel and 344-360 on_error, for Handler::ReqRR: [unwrap] panics when the receiver is gone. *)
Definition on_failure (p : rpeer) (sid code : N) (msg : bytes) : option rpeer :=
  match waiting p sid with
  | Some (k, c) =>
    let p := drop_handler p sid in
    if rc_gone c then None else Some (set_rcall p k (holds (RGot (inr (code, msg)))))
  | None => Some p
  end.

(** socket.rs:122-168 process_once: the new state and the frames sent.  [None]: a panic, or what does not happen with request/response only. *)
Definition process_once (p : rpeer) (g : rframe) : option (rpeer * list rframe) :=
  match g with
  | RRequestResponse r => match on_request_response p (rq_sid r) (rq_data r) (rq_metadata r) with Some p' => Some (p', []) | None => None end
  | RPayloadFrame f => Some (on_payload p (rp_sid f) (rp_next f) (rp_data f) (rp_metadata f), [])
  | RCancel sid => match on_failure p sid Canceled request_cancelled with Some p' => Some (p', []) | None => None end
  | RErrorFrame sid code data => match on_failure p sid code (if is_empty data then no_data else data) with Some p' => Some (p', []) | None => None end
  | RRequestN sid n => Some (p, [new_error sid ApplicationError (if n =? 0 then invalid_n else missing_id)])
  | RRequestFnF _ | RRequestStream _ | RRequestChannel _ => None
  end.

(** guest.rs:163-188 send_frame, for one of the frames read. *)
Definition receive (p : rpeer) (bs : bytes) : option (rpeer * list rframe) :=
  match rframe_decode bs with
  | Ret g => process_once p g
  | Fail _ => Some (p, [new_error 0 0 undecodable])
  | Panic => None
  end.

(** socket.rs:181-186: what the task of a request sends. *)
Definition rust_answer (sid : N) (o : pay + bytes) : rframe :=
  match o with
  | inl (data, md) => new_payload sid (Some md) (Some data) (N.lor FLAG_NEXT FLAG_COMPLETE)
  | inr msg => new_error sid ApplicationError msg
  end.
End Rust.
Arguments rpeer : clear implicits.

(** ** Both *)
Section Mix.
Context {Hg Hr : Type}.
Context (go_tbl : ikind -> list (option Hg)) (rust_tbl : list Hr).

Record mix := mkMix { x_go : peer Hg; x_rust : rpeer Hr; to_go : list bytes; to_rust : list bytes }.
Definition mix_create : mix := mkMix new_peer new_socket [] [].

(** The Go host. *)
Definition host_site (_ : side) : site := Host.
Definition host_tbl (_ : side) : ikind -> list (option Hg) := go_tbl.

Definition go_send (st : mix) (p : peer Hg) (f : frame) : option mix :=
  match frame_bytes f with Ret bs => Some (mkMix p (x_rust st) (to_go st) (to_rust st ++ [bs])) | _ => None end.
Fixpoint encode_all (l : list rframe) : option (list bytes) :=
  match l with
  | [] => Some []
  | g :: l' => match rframe_encode g, encode_all l' with Ret bs, Some r => Some (bs :: r) | _, _ => None end
  end.
Definition rust_send (st : mix) (p : rpeer Hr) (l : list rframe) : option mix :=
  match encode_all l with Some r => Some (mkMix (x_go st) p (to_go st ++ r) (to_rust st)) | None => None end.

Inductive xmove :=
| GCall (data md : bytes)                 (* the host calls RequestResponse *)
| GSubscribe (k : nat)                    (* it subscribes the mono of its k-th call *)
| GReceive                                (* its dispatcher takes the next frame *)
| GTask (i : nat)                         (* one of its goroutines goes on *)
| GConclude (i : nat) (o : pay + bytes)   (* the mono of its i-th run concludes *)
| RCall (data md : bytes)                 (* the guest calls request_response *)
| RReceive                                (* it is given the next frame *)
| RTask (i : nat)                         (* one of its tasks sends its error *)
| RConclude (i : nat) (o : pay + bytes)   (* the mono of its i-th run concludes *)
| RDrop (k : nat).                        (* it drops the receiving end of its k-th call *)

Definition x_move (st : mix) (m : xmove) : option mix :=
  let p := x_go st in
  let q := x_rust st in
  match m with
  (* as MCall, MSubscribe, MReceive, MTask and MConclude of [CallModel] *)
  | GCall data md =>
    match Next 2 Server (p_counter p) with
    | Some (counter, (sid, _)) =>
      Some (mkMix (mkPeer counter (p_odd p) (p_even p) (p_calls p ++ [mkCall sid data md false new_processor]) (p_tasks p) (p_runs p)) q (to_go st) (to_rust st))
    | None => None
    end
  | GSubscribe k =>
    match nth_error (p_calls p) k with
    | None => None
    | Some c =>
      match register p (c_sid c) k with
      | None => None
      | Some p' => go_send st (set_call p' k (fun c => mkCall (c_sid c) (c_data c) (c_md c) true (MonoModel.pstep (c_proc c) PSubscribe))) (request_of c)
      end
    end
  | GReceive =>
    match to_go st with
    | [] => None
    | bs :: rest =>
      match received host_site host_tbl Server p bs with
      | Ret l => match perform_all p l with Some p' => Some (mkMix p' q rest (to_rust st)) | None => None end
      | Fail _ => Some (mkMix p q rest (to_rust st))
      | Panic => None
      end
    end
  | GTask i =>
    match cut i (p_tasks p) with
    | Some (l, ASend f, r) => go_send st (mkPeer (p_counter p) (p_odd p) (p_even p) (p_calls p) (l ++ r) (p_runs p)) f
    | Some (l, ARun _ h sid data md _ _, r) =>
      Some (mkMix (mkPeer (p_counter p) (p_odd p) (p_even p) (p_calls p) (l ++ r) (p_runs p ++ [mkRun h sid data md None])) q (to_go st) (to_rust st))
    | _ => None
    end
  | GConclude i o =>
    match cut i (p_runs p) with
    | Some (l, mkRun h sid data md None, r) =>
      go_send st (mkPeer (p_counter p) (p_odd p) (p_even p) (p_calls p) (p_tasks p) (l ++ mkRun h sid data md (Some o) :: r)) (answer_of sid o)
    | _ => None
    end
  | RCall data md => let '(q', g) := rust_call q data md in rust_send st q' [g]
  | RReceive =>
    match to_rust st with
    | [] => None
    | bs :: rest =>
      match receive rust_tbl q bs with
      | Some (q', l) => rust_send (mkMix p q (to_go st) rest) q' l
      | None => None
      end
    end
  | RTask i =>
    match cut i (rs_tasks q) with
    | Some (l, (sid, msg), r) => rust_send st (mkRPeer (rs_next q) (rs_handlers q) (rs_calls q) (l ++ r) (rs_runs q)) [rust_answer sid (inr msg)]
    | None => None
    end
  | RConclude i o =>
    match cut i (rs_runs q) with
    | Some (l, mkRun h sid data md None, r) =>
      rust_send st (mkRPeer (rs_next q) (rs_handlers q) (rs_calls q) (rs_tasks q) (l ++ mkRun h sid data md (Some o) :: r)) [rust_answer sid o]
    | _ => None
    end
  | RDrop k =>
    match nth_error (rs_calls q) k with
    | Some _ => Some (mkMix p (set_rcall q k (fun c => mkRCall (rc_sid c) (rc_data c) (rc_md c) true (rc_res c))) (to_go st) (to_rust st))
    | None => None
    end
  end.
Fixpoint x_moves (st : mix) (ms : list xmove) : option mix :=
  match ms with [] => Some st | m :: ms' => match x_move st m with Some st' => x_moves st' ms' | None => None end end.
End Mix.
Arguments mix : clear implicits.
