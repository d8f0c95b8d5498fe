(** Model of one streaming call of a Go peer that a Rust guest serves: the requester's half as in [StreamModel], the guest from
    rust/crates/wasmrs/src/socket.rs, rust/crates/wasmrs-guest/src/server.rs and rust/crates/wasmrs-rx/src/{flux.rs,flux/receiver.rs}, the frames of
    [FramesModel] and [RustFramesModel].  Code only; no proofs.

    As in [StreamModel] two queues of encoded frames lie between them, which carry frames of other streams too, and everything that can happen is a
    move; moves come in any order.
    Simplifications: one stream is followed; what the guest does about frames of other streams and what it sends for them shows only as frames of
    other streams, among them the error for stream 0 it sends when it cannot decode a frame (guest.rs:180); the guest has no call of its own under
    the id of the stream. *)
From Coq Require Import List NArith ZArith Bool.
From Verif Require Import Base FramesModel InvokeModel MonoModel FluxModel ProxyModel DispatchModel ResponderModel StreamModel RustFramesModel RustOpsModel.
From Verif Require CallModel RustCallModel.
Import ListNotations.

(** flux/signal.rs: what is sent into the channel of a flux (observer.rs: send, error, complete). *)
Inductive rsig := Item (v : pay) | Problem (e : bytes) | Finish.
(** A task that on_request_stream (socket.rs:190-209) spawned: not yet run; reading the handler's flux, with what its channel holds and whether
    there is still a sender; over. *)
Inductive stask := Fresh (data md : bytes) | Open (q : list rsig) (live : bool) | Over.
(** What the guest says on the stream: a signal of the flux, its end, and complaints about RequestN frames. *)
Inductive saying := Told (s : rsig) | Ended | Complained (n : N).

Definition rframe_sid (g : rframe) : N :=
  match g with
  | RPayloadFrame p => rp_sid p
  | RCancel s | RErrorFrame s _ _ | RRequestN s _ => s
  | RRequestResponse r | RRequestFnF r | RRequestStream r | RRequestChannel r => rq_sid r
  end.

Section Stream.
Context {Hg Hr : Type}.
Context (w : site) (go_tbl : ikind -> list (option Hg)) (sp : bool) (g : fcfg).   (* the requester: dispatcher, handlers, wasm or host, callbacks *)
Context (tbl : list Hr).                                                          (* REQUEST_STREAM_HANDLERS, guest.rs:44 *)
Context (sid : N) (data md : bytes).

Record rconf := mkRC {
  s_p : pst; s_pths : list (list pitem); s_ptr : list pevent; s_ptodo : list (act Hg unit); s_preg : bool;    (* as in [StreamModel.conf] *)
  s_up : list bytes; s_down : list bytes;
  s_tasks : list stask;
  s_runs : list (Hr * bytes * bytes);                        (* handlers run *)
  s_pushed : list rsig; s_said : list saying }.              (* what was sent into the flux, and what the guest said, so far *)

Definition rs_create (n : nat) : rconf := mkRC proxy_create (repeat [PI FUser] (S n)) [] [] false [] [] [] [] [] [].

(** The frames of a saying: socket.rs:200-207 and 258-276. *)
Definition complaint (n : N) : bytes := if (n =? 0)%N then RustCallModel.invalid_n else RustCallModel.missing_id.
Definition says_frame (s : saying) : rframe :=
  match s with
  | Told (Item (d, m)) => new_payload sid (Some m) (Some d) FLAG_NEXT
  | Told (Problem e) => new_error sid RustCallModel.ApplicationError e
  | Told Finish | Ended => new_payload sid None None FLAG_COMPLETE
  | Complained n => new_error sid RustCallModel.ApplicationError (complaint n)
  end.

(** server.rs:75-88 request_stream with 12-22 flux_try!, for a task that runs first; then socket.rs:200-207 and receiver.rs:83-96, one signal at a
    time: the task, the handlers run, what flux_try! sends into its own flux, and what is said. *)
Definition task_step (t : stask) : option (stask * list (Hr * bytes * bytes) * list rsig * list saying) :=
  match t with
  | Fresh d m =>
    match RustCallModel.find_handler tbl m with
    | Ret (inl h) => Some (Open [] true, [(h, d, m)], [], [])
    | Ret (inr msg) => Some (Open [Problem msg] false, [], [Problem msg], [])
    | _ => None
    end
  | Open (Finish :: _) _ => Some (Over, [], [], [Ended])
  | Open (s :: q) live => Some (Open q live, [], [], [Told s])
  | Open [] false => Some (Over, [], [], [Ended])
  | Open [] true | Over => None
  end.

(** socket.rs:122-168 process_once for a frame of this stream: the tasks spawned and what is said. *)
Definition process (f : rframe) : list stask * list saying :=
  match f with
  | RRequestStream r => ([Fresh (rq_data r) (rq_metadata r)], [])
  | RRequestN _ n => ([], [Complained n])
  | _ => ([], [])
  end.

Definition say (down : list bytes) (l : list saying) : option (list bytes) :=
  match RustCallModel.encode_all (map says_frame l) with Some bs => Some (down ++ bs) | None => None end.

Inductive smove :=
| SCall (i : nat) (c : fcall pay bytes) | SReturn (i : nat) | SStep (i : nat) | SRecv | SAct    (* the requester, as in [StreamModel] *)
| SGive                                                                                         (* the guest is given the next frame *)
| STask (j : nat)                                                                               (* a task goes on *)
| SPush (j : nat) (s : rsig) | SDrop (j : nat)                                                  (* the handler: sends into its flux; drops the last sender *)
| SUp (bs : bytes) | SDown (bs : bytes).                                                        (* frames of other streams *)

Definition set_go (c : rconf) (st : pst) ths evs todo reg up down : rconf :=
  mkRC st ths (s_ptr c ++ evs) todo reg up down (s_tasks c) (s_runs c) (s_pushed c) (s_said c).
Definition set_rust (c : rconf) up down tasks runs pushed said : rconf :=
  mkRC (s_p c) (s_pths c) (s_ptr c) (s_ptodo c) (s_preg c) up down tasks (s_runs c ++ runs) (s_pushed c ++ pushed) (s_said c ++ said).

Definition s_move (c : rconf) (m : smove) : option rconf :=
  match m with
  | SCall i f =>
    match CallModel.cut i (s_pths c) with
    | Some (l, PI FUser :: stack, rest) => if pcalls f then Some (set_go c (s_p c) (l ++ (PI (FDo f) :: PI FUser :: stack) :: rest) [] (s_ptodo c) (s_preg c) (s_up c) (s_down c)) else None
    | _ => None
    end
  | SReturn i =>
    match CallModel.cut i (s_pths c) with
    | Some (l, PI FUser :: it :: stack, rest) => Some (set_go c (s_p c) (l ++ (it :: stack) :: rest) [] (s_ptodo c) (s_preg c) (s_up c) (s_down c))
    | _ => None
    end
  | SStep i =>
    match CallModel.cut i (s_pths c) with
    | Some (l, it :: stack, rest) =>
      match pstep sp g (stream_request sid data md) false (s_p c) it with
      | Some (st, its, new, evs) =>
        match posts (s_up c) (psent evs) with
        | Some up => Some (set_go c st (l ++ (its ++ stack) :: rest ++ new) evs (s_ptodo c) (registers_now evs || s_preg c) up (s_down c))
        | None => None
        end
      | None => None
      end
    | _ => None
    end
  | SRecv =>
    match s_pths c, s_ptodo c, s_down c with
    | [PI FUser] :: _, [], bs :: down =>
      match received sid w go_tbl (s_preg c) bs with
      | Ret l => Some (set_go c (s_p c) (s_pths c) [] (filter (own sid) l) (s_preg c) (s_up c) down)
      | Fail _ => Some (set_go c (s_p c) (s_pths c) [] [] (s_preg c) (s_up c) down)
      | Panic => None
      end
    | _, _, _ => None
    end
  | SAct =>
    match s_pths c, s_ptodo c with
    | [PI FUser] :: rest, ACall _ f :: todo =>
      match net_call f with Some n => Some (set_go c (s_p c) ([PNetDo n; PI FUser] :: rest) [] todo (s_preg c) (s_up c) (s_down c)) | None => None end
    | [PI FUser] :: rest, ARemove _ :: todo => Some (set_go c (s_p c) (s_pths c) [] todo false (s_up c) (s_down c))
    | _, _ => None
    end
  | SGive =>
    match s_up c with
    | [] => None
    | bs :: up =>
      match rframe_decode bs with
      | Ret f =>
        let '(new, said) := if (rframe_sid f =? sid)%N then process f else ([], []) in
        match say (s_down c) said with Some down => Some (set_rust c up down (s_tasks c ++ new) [] [] said) | None => None end
      | Fail _ => Some (set_rust c up (s_down c) (s_tasks c) [] [] [])
      | Panic => None
      end
    end
  | STask j =>
    match CallModel.cut j (s_tasks c) with
    | Some (a, t, b) =>
      match task_step t with
      | Some (t', runs, pushed, said) =>
        match say (s_down c) said with Some down => Some (set_rust c (s_up c) down (a ++ t' :: b) runs pushed said) | None => None end
      | None => None
      end
    | None => None
    end
  | SPush j s =>
    match CallModel.cut j (s_tasks c) with
    | Some (a, Open q true, b) => Some (set_rust c (s_up c) (s_down c) (a ++ Open (q ++ [s]) true :: b) [] [s] [])
    | _ => None
    end
  | SDrop j =>
    match CallModel.cut j (s_tasks c) with
    | Some (a, Open q true, b) => Some (set_rust c (s_up c) (s_down c) (a ++ Open q false :: b) [] [] [])
    | _ => None
    end
  | SUp bs => Some (set_rust c (s_up c ++ [bs]) (s_down c) (s_tasks c) [] [] [])
  | SDown bs => Some (set_rust c (s_up c) (s_down c ++ [bs]) (s_tasks c) [] [] [])
  end.
Fixpoint s_moves (c : rconf) (ms : list smove) : option rconf :=
  match ms with [] => Some c | m :: ms' => match s_move c m with Some c' => s_moves c' ms' | None => None end end.
End Stream.
Arguments rconf : clear implicits.
