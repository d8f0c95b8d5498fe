(** Model of the whole WasmSocket of the Rust implementation, with all four interactions on both sides, against any peer: rust/crates/wasmrs/src/socket.rs.
    Paths below are relative to rust/crates/wasmrs/src.  Code only; no proofs.

    The peer is whoever gives frames to process_once; the RSocket implementation behind the socket is whoever concludes the monos and feeds the fluxes it returned;
    the application is whoever calls, feeds the input of its channels and drops receivers.
    Simplifications: what a task does between two awaits is one move; the receiver of the socket's own frames (take_rx) is there; the RSocket implementation does
    not panic; abort_handles is left out, since nothing ever calls abort; a missing part of a Payload is empty; a FluxReceiver is read in order, so that only what
    was put into it is kept ([o_log]).  Bookkeeping for the specification: [k_hist], the authors in [k_out], the positions in the lists. *)
From Coq Require Import List NArith Bool.
From Verif Require Import Base ProxyModel RustFramesModel.
From Verif Require RustCallModel RustStreamModel.
Import ListNotations.
Open Scope N_scope.

(** socket.rs:19-23 Handler. *)
Inductive hkind := ReqRR | ReqRS | ReqRC.
(** What comes out of the receiving end of a Handler: a payload, or a PayloadError (code and msg). *)
Inductive news := NItem (p : pay) | NFail (code : N) (msg : bytes).
(** A Handler that was registered: its kind, stream, whether its receiving end is still there, and all that was put into it. *)
Record port := mkPort { o_kind : hkind; o_sid : N; o_open : bool; o_log : list news }.

(** What is put into a flux (flux/signal.rs of wasmrs-rx); of an error only its msg matters here. *)
Inductive signal := SOk (p : pay) | SErr (msg : bytes) | SComplete.
(** The flux a task reads: all that was put into it, how much was read, whether it can still be fed. *)
Record source := mkSource { u_fed : list signal; u_pos : nat; u_live : bool }.
Definition new_source : source := mkSource [] 0 true.
(** [stream.next().await] with flux/receiver.rs:85-98: [None] waits; [Some None] is the end. *)
Definition next_of (u : source) : option (option signal) :=
  match nth_error (u_fed u) (u_pos u) with
  | Some SComplete => Some None
  | Some s => Some (Some s)
  | None => if u_live u then None else Some None
  end.
Definition read_one (u : source) : source := mkSource (u_fed u) (S (u_pos u)) (u_live u).
Definition feed (u : source) (s : signal) : source := mkSource (u_fed u ++ [s]) (u_pos u) (u_live u).
Definition cut_off (u : source) : source := mkSource (u_fed u) (u_pos u) false.

(** The task of request_channel (socket.rs:412-441): first, n, its input, the RequestNs sent to it and how many it took, and where it is. *)
Inductive phase := Reading | Waiting | Ended.
Record caller := mkCaller { a_sid : N; a_first : bool; a_n : N; a_in : source; a_grants : list N; a_used : nat; a_phase : phase }.

(** The task of a request received (socket.rs:180-187, 195-207, 220-241, 251-255): its kind, stream, payload, whether it has run, the flux or mono it reads, and whether
    it is over. *)
Inductive skind := VRR | VFnF | VStream | VChannel.
Record serve := mkServe { v_kind : skind; v_sid : N; v_data : pay; v_started : bool; v_src : source; v_over : bool }.

(** Bookkeeping. *)
Inductive author := ByApp | ByCaller (i : nat) | ByServe (j : nat) | ByFrame.
Inductive event := EOpen (k : nat) (h : hkind) (sid : N) | EChannel (i : nat) (sid : N) | EFrame (f : rframe) | EDrop (k : nat).

Record sock := mkSock {
  k_next : N;                              (* stream_index *)
  k_handlers : list (N * nat);             (* handlers: the number of the port *)
  k_channels : list (N * nat);             (* channels: the number of the caller *)
  k_ports : list port; k_callers : list caller; k_serves : list serve;
  k_out : list (author * rframe);          (* sent into tx *)
  k_hist : list event }.

(** socket.rs:25-32, 68-89 new. *)
Inductive sside := Guest | Host.
Definition new_sock (s : sside) : sock := mkSock (match s with Guest => 2 | Host => 1 end) [] [] [] [] [] [] [].

(** SafeMap: insert, get and remove. *)
Definition m_remove (sid : N) (l : list (N * nat)) : list (N * nat) := filter (fun e => negb (fst e =? sid)) l.
Definition m_insert (sid : N) (k : nat) (l : list (N * nat)) : list (N * nat) := (sid, k) :: m_remove sid l.
Definition m_get (sid : N) (l : list (N * nat)) : option nat := match List.find (fun e => fst e =? sid) l with Some e => Some (snd e) | None => None end.

Definition put {A} (l : list A) (i : nat) (x : A) : list A := firstn i l ++ x :: skipn (S i) l.

Definition with_hist (s : sock) (e : event) : sock := mkSock (k_next s) (k_handlers s) (k_channels s) (k_ports s) (k_callers s) (k_serves s) (k_out s) (k_hist s ++ [e]).
Definition with_next (s : sock) (n : N) : sock := mkSock n (k_handlers s) (k_channels s) (k_ports s) (k_callers s) (k_serves s) (k_out s) (k_hist s).
Definition with_callers (s : sock) (channels : list (N * nat)) (l : list caller) : sock := mkSock (k_next s) (k_handlers s) channels (k_ports s) l (k_serves s) (k_out s) (k_hist s).
Definition with_serves (s : sock) (l : list serve) : sock := mkSock (k_next s) (k_handlers s) (k_channels s) (k_ports s) (k_callers s) l (k_out s) (k_hist s).
Definition with_ports (s : sock) (handlers : list (N * nat)) (l : list port) : sock := mkSock (k_next s) handlers (k_channels s) l (k_callers s) (k_serves s) (k_out s) (k_hist s).
(** socket.rs:447-450 send. *)
Definition send (s : sock) (a : author) (f : rframe) : sock := mkSock (k_next s) (k_handlers s) (k_channels s) (k_ports s) (k_callers s) (k_serves s) (k_out s ++ [(a, f)]) (k_hist s).

(** socket.rs:101-103 register_handler of a new Handler with [log] in it. *)
Definition register_handler (s : sock) (h : hkind) (sid : N) (log : list news) : sock :=
  with_hist (with_ports s (m_insert sid (length (k_ports s)) (k_handlers s)) (k_ports s ++ [mkPort h sid true log])) (EOpen (length (k_ports s)) h sid).

(** frames/mod.rs:333. *)
Definition REQUEST_MAX : N := 0x7fffffff.
(** socket.rs:427, 269. *)
Definition channel_failed : bytes := [82; 69; 81; 85; 69; 83; 84; 95; 67; 72; 65; 78; 78; 69; 76; 32; 102; 97; 105; 108; 101; 100].   (* "REQUEST_CHANNEL failed" *)
Definition channel_closed : bytes := [82; 101; 113; 117; 101; 115; 116; 78; 32; 99; 104; 97; 110; 110; 101; 108; 32; 99; 108; 111; 115; 101; 100].   (* "RequestN channel closed" *)

(** socket.rs:452-474 the frames. *)
Definition payload_frame (sid : N) (p : pay) (flags : N) : rframe := new_payload sid (Some (snd p)) (Some (fst p)) flags.
Definition complete_frame (sid : N) : rframe := new_payload sid None None FLAG_COMPLETE.
Definition app_error (sid : N) (msg : bytes) : rframe := new_error sid RustCallModel.ApplicationError msg.

(** ** The caller's side *)

Inductive ckind := CFnF | CRR | CStream.
(** socket.rs:364-371 fire_and_forget, 373-385 request_response, 387-399 request_stream; 96-98 next_stream_id. *)
Definition do_call (s : sock) (c : ckind) (p : pay) : sock :=
  let sid := k_next s in
  let s := with_next s (u32 (sid + 2)) in
  match c with
  | CFnF => send s ByApp (new_request_fnf sid (Some (snd p)) (Some (fst p)) 0)
  | CRR => send (register_handler s ReqRR sid []) ByApp (new_request_response sid (Some (snd p)) (Some (fst p)) 0)
  | CStream => send (register_handler s ReqRS sid []) ByApp (new_request_stream sid (Some (snd p)) (Some (fst p)) 0)
  end.

(** socket.rs:401-411 request_channel, 106-110 register_channel. *)
Definition do_channel (s : sock) : sock :=
  let sid := k_next s in
  let s := register_handler (with_next s (u32 (sid + 2))) ReqRC sid [] in
  with_hist (with_callers s (m_insert sid (length (k_callers s)) (k_channels s)) (k_callers s ++ [mkCaller sid true 1 new_source [] 0 Reading])) (EChannel (length (k_callers s)) sid).

(** socket.rs:412-441. *)
Definition caller_end (s : sock) (i : nat) (a : caller) : sock :=
  send (with_callers s (m_remove (a_sid a) (k_channels s)) (put (k_callers s) i (mkCaller (a_sid a) (a_first a) (a_n a) (a_in a) (a_grants a) (a_used a) Ended)))
       (ByCaller i) (complete_frame (a_sid a)).
Definition caller_step (s : sock) (i : nat) : option sock :=
  match nth_error (k_callers s) i with
  | None => None
  | Some a =>
    match a_phase a with
    | Reading =>
      match next_of (a_in a) with
      | None => None
      | Some None => Some (caller_end s i a)
      | Some (Some x) =>
        if a_n a =? 0 then None                                                         (* n -= 1 overflows: a panic *)
        else
          let n := a_n a - 1 in
          let '(first, f) := match x with
                             | SOk p => (false, if a_first a then new_request_channel (a_sid a) (Some (snd p)) (Some (fst p)) FLAG_NEXT REQUEST_MAX
                                                else payload_frame (a_sid a) p FLAG_NEXT)
                             | _ => (a_first a, app_error (a_sid a) channel_failed)
                             end in
          Some (send (with_callers s (k_channels s) (put (k_callers s) i (mkCaller (a_sid a) first n (read_one (a_in a)) (a_grants a) (a_used a) (if n =? 0 then Waiting else Reading))))
                     (ByCaller i) f)
      end
    | Waiting =>
      match nth_error (a_grants a) (a_used a) with
      | Some n => Some (with_callers s (k_channels s) (put (k_callers s) i (mkCaller (a_sid a) (a_first a) n (a_in a) (a_grants a) (S (a_used a)) Reading)))
      | None =>
        (* the sender is in the map, unless another channel took its place *)
        match m_get (a_sid a) (k_channels s) with
        | Some i' => if Nat.eqb i' i then None else Some (caller_end s i a)
        | None => Some (caller_end s i a)
        end
      end
    | Ended => None
    end
  end.

(** ** The responder's side *)

(** socket.rs:170-179, 190-195, 210-220, 244-250: the task of a request; request_response and fire_and_forget call the RSocket at once. *)
Definition spawn (s : sock) (v : skind) (sid : N) (p : pay) : sock :=
  with_serves s (k_serves s ++ [mkServe v sid p (match v with VRR | VFnF => true | _ => false end) new_source false]).
Definition on_request (s : sock) (v : skind) (r : rrequest) : sock :=
  let p := (rq_data r, rq_metadata r) in
  match v with
  | VChannel => spawn (register_handler s ReqRC (rq_sid r) [NItem p]) VChannel (rq_sid r) p
  | _ => spawn s v (rq_sid r) p
  end.

(** socket.rs:180-187, 195-207, 220-241, 251-255: the state of the task and the frames sent. *)
Definition serve_step (v : serve) : option (serve * list rframe) :=
  let sid := v_sid v in
  let over := fun u => mkServe (v_kind v) sid (v_data v) true u true in
  if v_over v then None else
  match v_kind v with
  | VRR =>
    match nth_error (u_fed (v_src v)) (u_pos (v_src v)) with
    | Some (SOk p) => Some (over (read_one (v_src v)), [payload_frame sid p (N.lor FLAG_NEXT FLAG_COMPLETE)])
    | Some (SErr e) => Some (over (read_one (v_src v)), [app_error sid e])
    | _ => None
    end
  | VFnF =>
    match nth_error (u_fed (v_src v)) (u_pos (v_src v)) with
    | Some (SOk _) => Some (over (read_one (v_src v)), [])
    | Some (SErr e) => Some (over (read_one (v_src v)), [app_error sid e])
    | _ => None
    end
  | _ =>
    if negb (v_started v) then
      Some (mkServe (v_kind v) sid (v_data v) true (v_src v) false, match v_kind v with VChannel => [new_request_n sid REQUEST_MAX 0] | _ => [] end)
    else
      match next_of (v_src v) with
      | None => None
      | Some None => Some (over (v_src v), [complete_frame sid])
      | Some (Some x) =>
        Some (mkServe (v_kind v) sid (v_data v) true (read_one (v_src v)) false, [match x with SOk p => payload_frame sid p FLAG_NEXT | SErr e => app_error sid e | SComplete => complete_frame sid end])
      end
  end.

(** Whether the RSocket implementation may put [x] into what it returned: a mono gives one result. *)
Definition may_feed (v : serve) (x : signal) : bool :=
  v_started v && u_live (v_src v) &&
  match v_kind v with
  | VRR | VFnF => match u_fed (v_src v), x with [], SOk _ | [], SErr _ => true | _, _ => false end
  | _ => true
  end.
Definition feed_serve (v : serve) (u : source) : serve := mkServe (v_kind v) (v_sid v) (v_data v) (v_started v) u (v_over v).

(** ** Frames *)

Definition log_to (s : sock) (k : nat) (o : port) (l : list news) : sock := with_ports s (k_handlers s) (put (k_ports s) k (mkPort (o_kind o) (o_sid o) (o_open o) (o_log o ++ l))).
Definition unregister (s : sock) (sid : N) : sock := with_ports s (m_remove sid (k_handlers s)) (k_ports s).
Definition handler_of (s : sock) (sid : N) : option (nat * port) :=
  match m_get sid (k_handlers s) with
  | Some k => match nth_error (k_ports s) k with Some o => Some (k, o) | None => None end
  | None => None
  end.

(** socket.rs:278-324 on_payload. *)
Definition on_payload (s : sock) (f : rpayload) : sock :=
  let sid := rp_sid f in
  match handler_of s sid with
  | None => s
  | Some (k, o) =>
    let item := [NItem (rp_data f, rp_metadata f)] in
    match o_kind o with
    | ReqRR => let s := unregister s sid in if rp_next f && o_open o then log_to s k o item else s
    | ReqRS | ReqRC =>
      let s := if rp_next f then if o_open o then log_to s k o item else send s ByFrame (new_cancel sid) else s in
      if rp_complete f then unregister s sid else s
    end
  end.
(** socket.rs:326-342 on_cancel: [unwrap] panics when the receiver is gone. *)
Definition on_cancel (s : sock) (sid : N) : option sock :=
  match handler_of s sid with
  | None => Some s
  | Some (k, o) =>
    let s := unregister s sid in
    match o_kind o with
    | ReqRR => if o_open o then Some (log_to s k o [NFail RustCallModel.Canceled RustCallModel.request_cancelled]) else None
    | ReqRS | ReqRC => Some s
    end
  end.
(** socket.rs:344-360 on_error, with 150-160. *)
Definition on_error (s : sock) (sid code : N) (data : bytes) : option sock :=
  let msg := if is_empty data then RustCallModel.no_data else data in
  match handler_of s sid with
  | None => Some s
  | Some (k, o) => if o_open o then Some (log_to (unregister s sid) k o [NFail code msg]) else None
  end.
(** socket.rs:258-276 on_request_n; the receiver is dropped when the task ends, after its sender was taken from the map. *)
Definition on_request_n (s : sock) (sid n : N) : sock :=
  if n =? 0 then send s ByFrame (app_error sid RustCallModel.invalid_n)
  else
    match m_get sid (k_channels s) with
    | Some i =>
      match nth_error (k_callers s) i with
      | Some a =>
        match a_phase a with
        | Ended => send s ByFrame (app_error sid channel_closed)
        | ph => with_callers s (k_channels s) (put (k_callers s) i (mkCaller (a_sid a) (a_first a) (a_n a) (a_in a) (a_grants a ++ [n]) (a_used a) ph))
        end
      | None => s
      end
    | None => send s ByFrame (app_error sid RustCallModel.missing_id)
    end.

(** socket.rs:122-168 process_once. *)
Definition process_once (s : sock) (f : rframe) : option sock :=
  let s := with_hist s (EFrame f) in
  match f with
  | RRequestFnF r => Some (on_request s VFnF r)
  | RRequestResponse r => Some (on_request s VRR r)
  | RRequestStream r => Some (on_request s VStream r)
  | RRequestChannel r => Some (on_request s VChannel r)
  | RPayloadFrame p => Some (on_payload s p)
  | RCancel sid => on_cancel s sid
  | RErrorFrame sid code data => on_error s sid code data
  | RRequestN sid n => Some (on_request_n s sid n)
  end.

Inductive kmove :=
| KCall (c : ckind) (p : pay)         (* the application calls *)
| KChannel                            (* it opens a channel *)
| KFeed (i : nat) (x : signal)        (* it feeds the input of its i-th channel *)
| KCut (i : nat)                      (* it drops the sending end of that *)
| KDrop (k : nat)                     (* the receiving end of the k-th handler is dropped *)
| KCaller (i : nat)                   (* the task of its i-th channel goes on *)
| KServe (j : nat)                    (* the task of the j-th request received goes on *)
| KGive (j : nat) (x : signal)        (* the RSocket implementation puts something into what it returned *)
| KQuit (j : nat)                     (* it drops the sending end of that *)
| KFrame (f : rframe).                (* process_once *)

Definition k_move (s : sock) (m : kmove) : option sock :=
  match m with
  | KCall c p => Some (do_call s c p)
  | KChannel => Some (do_channel s)
  | KFeed i x =>
    match nth_error (k_callers s) i with
    | Some a => if u_live (a_in a) then Some (with_callers s (k_channels s) (put (k_callers s) i (mkCaller (a_sid a) (a_first a) (a_n a) (feed (a_in a) x) (a_grants a) (a_used a) (a_phase a)))) else None
    | None => None
    end
  | KCut i =>
    match nth_error (k_callers s) i with
    | Some a => Some (with_callers s (k_channels s) (put (k_callers s) i (mkCaller (a_sid a) (a_first a) (a_n a) (cut_off (a_in a)) (a_grants a) (a_used a) (a_phase a))))
    | None => None
    end
  | KDrop k =>
    match nth_error (k_ports s) k with
    | Some o => Some (with_hist (with_ports s (k_handlers s) (put (k_ports s) k (mkPort (o_kind o) (o_sid o) false (o_log o)))) (EDrop k))
    | None => None
    end
  | KCaller i => caller_step s i
  | KServe j =>
    match nth_error (k_serves s) j with
    | Some v =>
      match serve_step v with
      | Some (v', l) => Some (fold_left (fun s f => send s (ByServe j) f) l (with_serves s (put (k_serves s) j v')))
      | None => None
      end
    | None => None
    end
  | KGive j x =>
    match nth_error (k_serves s) j with
    | Some v => if may_feed v x then Some (with_serves s (put (k_serves s) j (feed_serve v (feed (v_src v) x)))) else None
    | None => None
    end
  | KQuit j =>
    match nth_error (k_serves s) j with
    | Some v => if v_started v then Some (with_serves s (put (k_serves s) j (feed_serve v (cut_off (v_src v))))) else None
    | None => None
    end
  | KFrame f => process_once s f
  end.
Fixpoint k_moves (s : sock) (ms : list kmove) : option sock :=
  match ms with [] => Some s | m :: ms' => match k_move s m with Some s' => k_moves s' ms' | None => None end end.
