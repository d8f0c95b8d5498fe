(** Model of how frames pass through a host instance, go/transport/wasmrs/host/instance.go:82-83, 104-108, 138-152, 159-211, 230-252: SendFrame, the channels sendCh
    and recvCh with room for 100 frames each, sendLoop, the guest calling hostSend while it is being called, recvLoop, Close.  Code only; no proofs.

    The goroutines of sendLoop and recvLoop and any number of others take atomic steps in any order.  What the guest sends while it is called, what the handling of a frame
    sends, and what other goroutines send is chosen by the environment.  Simplifications: frames are of any type; how they are laid out in the guest's memory is in
    [BatchModel], here [fits buf f] says whether f has room behind buf (instance.go:177); a panic in any goroutine ends the program;
    Close is one step. *)
From Coq Require Import List Bool Arith.
Import ListNotations.

(** instance.go:82-83. *)
Definition cap : nat := 100.

Section Pipe.
Variable F : Type.
Variable fits : list F -> F -> bool.

(** Where sendLoop is.  [k]: the frame it goes on to write once the guest returns, if any. *)
Inductive spc :=
| SOuter                                   (* instance.go:192, waiting for a frame *)
| SWrite (f : F)                           (* 166, about to write f *)
| SInner                                   (* 196 *)
| SCall (k : option F)                     (* 178, 202: in the guest *)
| SHost (fs : list F) (k : option F)       (* in the guest, which has called hostSend (230); the frames still to be put into recvCh *)
| SEnded.
(** Where recvLoop is. *)
Inductive rpc :=
| RIdle                                    (* 247, waiting for a frame *)
| RHandle (f : F)                          (* 248, in recvOne *)
| RSend (f g : F)                          (* in recvOne, which has called SendFrame with g (151) *)
| REnded.

(** send, recv: the channels.  pending: goroutines in SendFrame (other than recvLoop).  buf: the frames written to the guest's memory since the last call.
    The logs: sent, frames that have entered sendCh; given, frames the guest was called with; received, frames that have entered recvCh; handled, frames recvOne was
    called with. *)
Record pipe := mkPipe {
  p_send : list F; p_recv : list F; p_closed : bool; p_sloop : spc; p_rloop : rpc; p_pending : list F; p_buf : list F; p_crashed : bool;
  p_sent : list F; p_given : list F; p_received : list F; p_handled : list F }.

(** NewInstance, 78-101. *)
Definition new_pipe : pipe := mkPipe [] [] false SOuter RIdle [] [] false [] [] [] [].

Inductive paction :=
| PLoop | PWrite | PPush | PReturn                   (* sendLoop goes on; it writes; hostSend puts a frame; the guest returns *)
| PRecv | PHandled | PHandlerSend                    (* recvLoop takes a frame; recvOne returns; the frame it sends enters sendCh *)
| PSender (n : nat)                                  (* the frame of the n-th sender enters sendCh *)
| EGuest (fs : list F)                               (* the guest calls hostSend with these *)
| EHandler (g : F)                                   (* recvOne calls SendFrame *)
| EUser (g : F)                                      (* another goroutine calls SendFrame *)
| EClose.

Definition crash (s : pipe) : pipe :=
  let '(mkPipe q r cl sl rl pe b _ l1 l2 l3 l4) := s in mkPipe q r cl sl rl pe b true l1 l2 l3 l4.

(** One step; [None]: not enabled. *)
Definition pstep (s : pipe) (a : paction) : option pipe :=
  let '(mkPipe q r cl sl rl pe b cr l1 l2 l3 l4) := s in
  if cr then None else
  match a with
  | PLoop =>
    match sl with
    (* 192 *)
    | SOuter => match q with f :: q' => Some (mkPipe q' r cl (SWrite f) rl pe b cr l1 l2 l3 l4) | [] => if cl then Some (mkPipe q r cl SEnded rl pe b cr l1 l2 l3 l4) else None end
    (* 195-208; from a closed channel comes nil, and nil.Size() panics *)
    | SInner =>
      match q with
      | f :: q' => Some (mkPipe q' r cl (SWrite f) rl pe b cr l1 l2 l3 l4)
      | [] => if cl then Some (crash s) else match b with [] => Some (mkPipe q r cl SOuter rl pe b cr l1 l2 l3 l4) | _ => Some (mkPipe q r cl (SCall None) rl pe [] cr l1 (l2 ++ b) l3 l4) end
      end
    | _ => None
    end
  (* 166-190 *)
  | PWrite =>
    match sl with
    | SWrite f => if fits b f then Some (mkPipe q r cl SInner rl pe (b ++ [f]) cr l1 l2 l3 l4) else Some (mkPipe q r cl (SCall (Some f)) rl pe [] cr l1 (l2 ++ b) l3 l4)
    | _ => None
    end
  (* 233-243 *)
  | PPush =>
    match sl with
    | SHost [] k => Some (mkPipe q r cl (SCall k) rl pe b cr l1 l2 l3 l4)
    | SHost (f :: fs) k => if cl then Some (crash s) else if length r <? cap then Some (mkPipe q (r ++ [f]) cl (SHost fs k) rl pe b cr l1 l2 (l3 ++ [f]) l4) else None
    | _ => None
    end
  (* 179-189, 203-206 *)
  | PReturn =>
    match sl with
    | SCall None => Some (mkPipe q r cl SOuter rl pe b cr l1 l2 l3 l4)
    | SCall (Some f) => Some (mkPipe q r cl SInner rl pe (b ++ [f]) cr l1 l2 l3 l4)
    | _ => None
    end
  (* 247 *)
  | PRecv =>
    match rl with
    | RIdle => match r with f :: r' => Some (mkPipe q r' cl sl (RHandle f) pe b cr l1 l2 l3 (l4 ++ [f])) | [] => if cl then Some (mkPipe q r cl sl REnded pe b cr l1 l2 l3 l4) else None end
    | _ => None
    end
  | PHandled => match rl with RHandle _ => Some (mkPipe q r cl sl RIdle pe b cr l1 l2 l3 l4) | _ => None end
  (* 151 *)
  | PHandlerSend =>
    match rl with
    | RSend f g => if cl then Some (crash s) else if length q <? cap then Some (mkPipe (q ++ [g]) r cl sl (RHandle f) pe b cr (l1 ++ [g]) l2 l3 l4) else None
    | _ => None
    end
  | PSender n =>
    match nth_error pe n with
    | Some g => if cl then Some (crash s) else if length q <? cap then Some (mkPipe (q ++ [g]) r cl sl rl (firstn n pe ++ skipn (S n) pe) b cr (l1 ++ [g]) l2 l3 l4) else None
    | None => None
    end
  | EGuest fs => match sl with SCall k => Some (mkPipe q r cl (SHost fs k) rl pe b cr l1 l2 l3 l4) | _ => None end
  | EHandler g => match rl with RHandle f => Some (mkPipe q r cl sl (RSend f g) pe b cr l1 l2 l3 l4) | _ => None end
  | EUser g => Some (mkPipe q r cl sl rl (pe ++ [g]) b cr l1 l2 l3 l4)
  (* 104-108; closing twice panics *)
  | EClose => if cl then Some (crash s) else Some (mkPipe q r true sl rl pe b cr l1 l2 l3 l4)
  end.

Fixpoint pruns (s : pipe) (l : list paction) : option pipe :=
  match l with [] => Some s | a :: l' => match pstep s a with Some s' => pruns s' l' | None => None end end.
End Pipe.
Arguments new_pipe {F}.
Arguments PLoop {F}. Arguments PWrite {F}. Arguments PPush {F}. Arguments PReturn {F}. Arguments PRecv {F}. Arguments PHandled {F}. Arguments PHandlerSend {F}.
Arguments PSender {F}. Arguments EGuest {F}. Arguments EHandler {F}. Arguments EUser {F}. Arguments EClose {F}.
Arguments SOuter {F}. Arguments SWrite {F}. Arguments SInner {F}. Arguments SCall {F}. Arguments SHost {F}. Arguments SEnded {F}.
Arguments RIdle {F}. Arguments RHandle {F}. Arguments RSend {F}. Arguments REnded {F}.
Arguments p_send {F}. Arguments p_recv {F}. Arguments p_closed {F}. Arguments p_sloop {F}. Arguments p_rloop {F}. Arguments p_pending {F}. Arguments p_buf {F}. Arguments p_crashed {F}.
Arguments p_sent {F}. Arguments p_given {F}. Arguments p_received {F}. Arguments p_handled {F}. Arguments mkPipe {F}. Arguments pstep {F}. Arguments pruns {F}. Arguments crash {F}.
