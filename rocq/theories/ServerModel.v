(** Model of the life of a TCP server, go/transport/rsocket/tcp_transport.go:16-143: Listen with the goroutine that waits for its context, Close,
    putTransport and removeTransport.  Code only; no proofs.

    The goroutine of Listen, the one that watches the context, those that serve connections, and user code take atomic steps in any order.  What is
    done under the mutex is one step (net.Listener.Close and Transport.Close do not block).  What the listener factory and Accept give is chosen by
    the environment; an open listener may give a connection or an error, a closed one gives "use of closed network connection" or some other error.
    Simplifications: Listen is called once; the accesses to [t.l] and [t.acceptor] outside the mutex are atomic; errors of closing are dropped, as
    in the code (but for the one Close returns); the serving of a connection (Transport.Start, [TransportModel]) ends at any time, closing it. *)
From Coq Require Import List Bool Arith.
Import ListNotations.

(** The errors Listen returns, tcp_transport.go:58 and 88. *)
Inductive lerr := EListen | EAccept.

(** Where Listen is; transports are named by the number of their connection. *)
Inductive lpc :=
| LIdle                          (* not yet called *)
| LFactory                       (* tcp_transport.go:55, in the listener factory *)
| LNotify (ok : bool)            (* 57, 66: notifier <- ok *)
| LAccept                        (* 82, in Accept *)
| LPut (c : nat)                 (* 99, about to call putTransport *)
| LSpawn (c : nat)               (* 100 *)
| LRefuse (c : nat)              (* 105, about to call Close *)
| LDefer (e : option lerr)       (* out of the loop; 62-64, about to call Close *)
| LReturned (e : option lerr).

(** An accepted connection: whether it is open, whether its Start has been called and has ended, and how often the acceptor was called for it. *)
Record conn := mkConn { k_open : bool; k_started : bool; k_ended : bool; k_accepted : nat }.

(** done: whether the channel is closed.  listener: [t.l], nil or whether it is open.  reg: the map [t.m], which may be nil.  watcher: the goroutine
    of lines 69-77, which may be waiting. *)
Record server := mkServer {
  sv_done : bool; sv_listener : option bool; sv_reg : option (list nat); sv_conns : list conn; sv_listen : lpc; sv_ctx : bool; sv_watcher : bool }.

(** NewTCPServerTransport, 134-143. *)
Definition new_server : server := mkServer false None (Some []) [] LIdle false false.

Definition upd_conn (l : list conn) (c : nat) (f : conn -> conn) : list conn :=
  match nth_error l c with Some k => firstn c l ++ f k :: skipn (S c) l | None => l end.
(** Transport.Close, transport.go:128-134. *)
Definition close_conn (k : conn) : conn := mkConn false (k_started k) (k_ended k) (k_accepted k).

(** Close, 32-52. *)
Definition close_server (s : server) : server :=
  let '(mkServer done l reg cs pc ctx w) := s in
  if done then s
  else match l with
       | None => mkServer true l reg cs pc ctx w
       | Some _ =>
         mkServer true (Some false) None (fold_left (fun cs c => upd_conn cs c close_conn) (match reg with Some m => m | None => [] end) cs) pc ctx w
       end.

Inductive saction :=
| AListen                        (* user code calls Listen *)
| AFactory (ok : bool)           (* the listener factory returns *)
| ANotified                      (* the other side takes the notification *)
| AConn | AEnd | AFail           (* Accept returns a connection; io.EOF or "use of closed network connection"; another error *)
| AListenStep                    (* Listen goes on *)
| AClose                         (* user code calls Close *)
| ACtx                           (* the context is cancelled *)
| AWatchCtx | AWatchDone         (* the watching goroutine *)
| AServed (c : nat)              (* the Start of connection c returns *)
| ARemove (c : nat).             (* onClose is called, removeTransport 110-114 *)

Definition at_pc (s : server) (pc : lpc) : server :=
  let '(mkServer done l reg cs _ ctx w) := s in mkServer done l reg cs pc ctx w.

(** One step; [None]: not enabled. *)
Definition sstep (s : server) (a : saction) : option server :=
  let '(mkServer done l reg cs pc ctx w) := s in
  match a, pc with
  | AListen, LIdle => Some (at_pc s LFactory)
  (* 55-60 *)
  | AFactory ok, LFactory => Some (mkServer done (if ok then Some true else None) reg cs (LNotify ok) ctx w)
  (* 57-59; 66-77 *)
  | ANotified, LNotify false => Some (at_pc s (LReturned (Some EListen)))
  | ANotified, LNotify true => Some (mkServer done l reg cs LAccept ctx true)
  (* 80-97 *)
  | AConn, LAccept => match l with Some true => Some (mkServer done l reg (cs ++ [mkConn true false false 0]) (LPut (length cs)) ctx w) | _ => None end
  | AEnd, LAccept => Some (at_pc s (LDefer None))
  | AFail, LAccept => Some (at_pc s (LDefer (Some EAccept)))
  (* 99, 116-130 *)
  | AListenStep, LPut c =>
    match done, reg with
    | false, Some m => Some (mkServer done l (Some (m ++ [c])) cs (LSpawn c) ctx w)
    | _, _ => Some (at_pc s (LRefuse c))
    end
  (* 100-103 *)
  | AListenStep, LSpawn c =>
    Some (mkServer done l reg (upd_conn cs c (fun k => mkConn (k_open k) true (k_ended k) (S (k_accepted k)))) LAccept ctx w)
  (* 105 *)
  | AListenStep, LRefuse c => Some (at_pc (close_server s) LAccept)
  (* 62-64, 108 *)
  | AListenStep, LDefer e => Some (at_pc (close_server s) (LReturned e))
  | AClose, _ => Some (close_server s)
  | ACtx, _ => if ctx then None else Some (mkServer done l reg cs pc true w)
  (* 69-77 *)
  | AWatchCtx, _ => if w && ctx then Some (let '(mkServer done l reg cs pc ctx _) := close_server s in mkServer done l reg cs pc ctx false) else None
  | AWatchDone, _ => if w && done then Some (mkServer done l reg cs pc ctx false) else None
  (* transport.go:174-177 *)
  | AServed c, _ =>
    match nth_error cs c with
    | Some k => if k_started k && negb (k_ended k) then Some (mkServer done l reg (upd_conn cs c (fun k => mkConn false (k_started k) true (k_accepted k))) pc ctx w) else None
    | None => None
    end
  | ARemove c, _ => Some (mkServer done l (match reg with Some m => Some (filter (fun d => negb (d =? c)) m) | None => None end) cs pc ctx w)
  | _, _ => None
  end.

Fixpoint sruns (s : server) (l : list saction) : option server :=
  match l with [] => Some s | a :: l' => match sstep s a with Some s' => sruns s' l' | None => None end end.
