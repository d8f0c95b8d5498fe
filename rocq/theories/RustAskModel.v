(** Model of one streaming call of a Rust guest that a Go peer serves: the caller from rust/crates/wasmrs/src/socket.rs and
    rust/crates/wasmrs-rx/src/{flux.rs,flux/receiver.rs}, the responder's half as in [StreamModel], the frames of [FramesModel] and
    [RustFramesModel].  Code only; no proofs.

    The configuration of [StreamModel] is kept for the responder and the lines; its requester's end is not used, except that the frames the guest has
    sent on the stream are recorded where the requester's would be.
    Simplifications: one stream is followed; what the guest does about frames of other streams shows only as frames of other streams, among them the
    error for stream 0 it sends when it cannot decode a frame (guest.rs:180); a guest that panicked does nothing more. *)
From Coq Require Import List NArith ZArith Bool.
From Verif Require Import Base FramesModel InvokeModel MonoModel FluxModel ProxyModel DispatchModel ResponderModel StreamModel RustFramesModel RustStreamModel.
From Verif Require CallModel RustCallModel.
Import ListNotations.

(** What reading the FluxReceiver gives: an item, an error, or that there is nothing more (receiver.rs:83-96). *)
Inductive reading := GItem (v : pay) | GProblem (e : bytes) | GEnd.

(** How a Go peer reads a frame of the guest: only the two the caller sends. *)
Definition sent_as (g : rframe) : frame :=
  match g with
  | RCancel s => FramesModel.FCancel s
  | RRequestStream r => FramesModel.FRequest (mkRequest FrameTypeRequestStream (rq_sid r) (rq_metadata r) (rq_data r) (rq_follows r) (rq_complete r) (rq_initial_n r))
  | _ => FramesModel.FCancel 0
  end.

Section Ask.
Context {H : Type}.
Context (w : site) (tbl : ikind -> list (option H)) (sr : bool).   (* the responder: dispatcher, handlers, wasm or host *)
Context (sid : N) (data md : bytes).

Record qconf := mkQ {
  q_go : conf H;
  q_called : bool;               (* request_stream was called *)
  q_reg : bool;                  (* the map of handlers holds the stream (socket.rs:44) *)
  q_queue : list rsig;           (* what the channel of the flux holds *)
  q_open : bool;                 (* the caller still has the receiver *)
  q_read : list reading;         (* what it read *)
  q_trap : bool }.               (* the guest panicked *)

Definition q_create (m : nat) : qconf := mkQ (stream_create 0 m) false false [] true [] false.

(** socket.rs:387-399 with frames/mod.rs:462-464: the flags and the initial n are 0. *)
Definition opening : rframe := RRequestStream (mkRRequest TRequestStream sid md data false false 0).

(** socket.rs:447-450 and the frame's encoding; what was sent is recorded. *)
Definition sends (c : conf H) (l : list rframe) : option (conf H) :=
  match RustCallModel.encode_all l with
  | Some bs => Some (set_p c (c_p c) (c_pths c) (map (fun f => PSent (sent_as f)) l) (c_ptodo c) (c_preg c) (c_up c ++ bs))
  | None => None
  end.

(** socket.rs:278-324 on_payload, 344-360 on_error with 144-156, 326-342 on_cancel, for a frame of this stream: whether the stream stays registered,
    what is sent into the flux, what is sent back and whether the guest panics.  The requests of others never carry the id. *)
Definition takes (reg open : bool) (f : rframe) : bool * list rsig * list rframe * bool :=
  match f with
  | RPayloadFrame p =>
    if reg then (negb (rp_complete p),
                 if rp_next p && open then [Item (rp_data p, rp_metadata p)] else [],
                 if rp_next p && negb open then [RCancel sid] else [], false)
    else (false, [], [], false)
  | RErrorFrame _ _ m => if reg then (false, if open then [Problem (match m with [] => RustCallModel.no_data | _ => m end)] else [], [], negb open) else (false, [], [], false)
  | RCancel _ => (false, [], [], false)
  | RRequestN _ n => (reg, [], [RErrorFrame sid RustCallModel.ApplicationError (complaint n)], false)
  | _ => (reg, [], [], false)
  end.

Inductive qmove :=
| QCall                         (* request_stream *)
| QGive                         (* the guest is given the next frame *)
| QRead                         (* the caller polls the receiver, and gets something *)
| QDrop                         (* it drops the receiver *)
| QGo (m : move).               (* the responder, and frames of other streams *)

(** Moves that are not the requester's of [StreamModel]. *)
Definition theirs (m : move) : bool := match m with MPCall _ _ | MPReturn _ | MPStep _ | MPRecv | MPAct => false | _ => true end.
(** The callbacks of the requester of [StreamModel] do not matter. *)
Definition no_cb : fcfg := mkF false false false false false false.

Definition set_line (c : conf H) (down : list bytes) : conf H :=
  mkC (c_p c) (c_pths c) (c_ptr c) (c_ptodo c) (c_preg c) (c_up c) down (c_r c) (c_rths c) (c_rtr c) (c_rtodo c) (c_rreg c) (c_tasks c) (c_runs c).

Definition ended_reading (l : list reading) : bool := existsb (fun x => match x with GEnd => true | _ => false end) l.

Definition q_move (c : qconf) (m : qmove) : option qconf :=
  match m with
  | QGo m => if theirs m then match do_move w w tbl tbl sr sr no_cb sid data md (q_go c) m with Some go => Some (mkQ go (q_called c) (q_reg c) (q_queue c) (q_open c) (q_read c) (q_trap c)) | None => None end else None
  | _ =>
    if q_trap c then None else
    match m with
    | QCall =>
      if q_called c then None else
      match sends (q_go c) [opening] with Some go => Some (mkQ go true true (q_queue c) (q_open c) (q_read c) false) | None => None end
    | QGive =>
      match c_down (q_go c) with
      | [] => None
      | bs :: down =>
        match rframe_decode bs with
        | Ret f =>
          if (rframe_sid f =? sid)%N then
            let '(reg, put, back, trap) := takes (q_reg c) (q_open c) f in
            match sends (set_line (q_go c) down) back with Some go => Some (mkQ go (q_called c) reg (q_queue c ++ put) (q_open c) (q_read c) trap) | None => None end
          else Some (mkQ (set_line (q_go c) down) (q_called c) (q_reg c) (q_queue c) (q_open c) (q_read c) false)
        | Fail _ => Some (mkQ (set_line (q_go c) down) (q_called c) (q_reg c) (q_queue c) (q_open c) (q_read c) false)
        | Panic => None
        end
      end
    (* receiver.rs:83-96; the sender lives in the map of handlers *)
    | QRead =>
      if q_open c && q_called c && negb (ended_reading (q_read c)) then
        match q_queue c with
        | Item v :: q => Some (mkQ (q_go c) true (q_reg c) q true (q_read c ++ [GItem v]) false)
        | Problem e :: q => Some (mkQ (q_go c) true (q_reg c) q true (q_read c ++ [GProblem e]) false)
        | Finish :: q => Some (mkQ (q_go c) true (q_reg c) q true (q_read c ++ [GEnd]) false)
        | [] => if q_reg c then None else Some (mkQ (q_go c) true false [] true (q_read c ++ [GEnd]) false)
        end
      else None
    | QDrop => if q_open c && q_called c then Some (mkQ (q_go c) true (q_reg c) [] false (q_read c) false) else None
    | QGo _ => None
    end
  end.
Fixpoint q_moves (c : qconf) (ms : list qmove) : option qconf :=
  match ms with [] => Some c | m :: ms' => match q_move c m with Some c' => q_moves c' ms' | None => None end end.
End Ask.
Arguments qconf : clear implicits.
