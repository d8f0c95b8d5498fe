(** Model of go/internal/buffer/unbounded.go as a state machine with the granularity of single channel
    operations: receives happen without the mutex and may fall between any two steps of a method that holds
    it. *)
From Coq Require Import List NArith Bool.
From Verif Require Import Base.
Import ListNotations.

Section Unbounded.
Context {T : Type}.

(** Position of the method that holds the mutex. *)
Inductive pc :=
| Idle                    (* mutex free *)
| PutChecked (t : T)      (* unbounded.go:54-61, not disposed, about to test the backlog *)
| PutTrySend (t : T)      (* unbounded.go:62-67 select *)
| PutAppend (t : T)       (* unbounded.go:69 *)
| LoadTrySend             (* unbounded.go:80-87 select *)
| LoadClose               (* unbounded.go:88-91 *)
| DisposeClose.           (* unbounded.go:109-111 *)

(** unbounded.go:38-43 Unbounded: a channel of capacity one, the backlog and the disposed mark, plus the
    mutex holder. *)
Record ubuf := mkU {
  u_chan : option T;
  u_closed : bool;
  u_backlog : list T;
  u_disposed : bool;
  u_pc : pc }.

(** unbounded.go:46-48 NewUnbounded. *)
Definition NewUnbounded : ubuf := mkU None false [] false Idle.

(** What an observer of the buffer sees. *)
Inductive event :=
| EvAccepted (t : T)      (* a Put that will return true *)
| EvRejected (t : T)      (* a Put that returned false *)
| EvReceived (t : T)      (* a value received from Get() *)
| EvClosed                (* a receive from the closed channel *)
| EvLoaded (n : option bool) (* a Load: Some true = 1, Some false = 0, None = -1 *)
| EvDisposed              (* a Dispose *)
| EvTau.

(** Actions available to the environment and to the lock holder. *)
Inductive action :=
| ABeginPut (t : T) | ABeginLoad | ABeginDispose | AStep | ARecv.

(** One atomic action; [None]: not enabled (blocked), [Some Panic]: the Go program panics. *)
Definition ustep (s : ubuf) (a : action) : option (outcome unit (ubuf * event)) :=
  let '(mkU c cl bl d p) := s in
  match a, p with
  (* unbounded.go:51-57 *)
  | ABeginPut t, Idle => if d then Some (Ret (s, EvRejected t)) else Some (Ret (mkU c cl bl d (PutChecked t), EvAccepted t))
  (* unbounded.go:61 *)
  | AStep, PutChecked t => match bl with
                           | [] => Some (Ret (mkU c cl bl d (PutTrySend t), EvTau))
                           | _ => Some (Ret (mkU c cl bl d (PutAppend t), EvTau))
                           end
  (* unbounded.go:62-67: sending on a closed channel panics, even in a select *)
  | AStep, PutTrySend t => if cl then Some Panic
                           else match c with
                                | None => Some (Ret (mkU (Some t) cl bl d Idle, EvTau))
                                | Some _ => Some (Ret (mkU c cl bl d (PutAppend t), EvTau))
                                end
  (* unbounded.go:69-71 *)
  | AStep, PutAppend t => Some (Ret (mkU c cl (bl ++ [t]) d Idle, EvTau))
  (* unbounded.go:77-79,88 *)
  | ABeginLoad, Idle => match bl with
                        | [] => if d then Some (Ret (mkU c cl bl d LoadClose, EvTau)) else Some (Ret (s, EvLoaded (Some false)))
                        | _ => Some (Ret (mkU c cl bl d LoadTrySend, EvTau))
                        end
  (* unbounded.go:80-87 *)
  | AStep, LoadTrySend => if cl then Some Panic
                          else match c, bl with
                               | None, x :: bl' => Some (Ret (mkU (Some x) cl bl' d Idle, EvLoaded (Some true)))
                               | _, _ => Some (Ret (mkU c cl bl d Idle, EvLoaded (Some false)))
                               end
  (* unbounded.go:89-90 and 115-121: closing twice panics inside close() and is recovered there *)
  | AStep, LoadClose => Some (Ret (mkU c true bl d Idle, EvLoaded None))
  (* unbounded.go:106-109 *)
  | ABeginDispose, Idle => match bl with
                           | [] => Some (Ret (mkU c cl bl true DisposeClose, EvDisposed))
                           | _ => Some (Ret (mkU c cl bl true Idle, EvDisposed))
                           end
  (* unbounded.go:110 and 115-121 *)
  | AStep, DisposeClose => Some (Ret (mkU c true bl d Idle, EvTau))
  (* unbounded.go:101-103: receive from the channel returned by Get, no mutex *)
  | ARecv, _ => match c with
                | Some t => Some (Ret (mkU None cl bl d p, EvReceived t))
                | None => if cl then Some (Ret (s, EvClosed)) else None
                end
  | _, _ => None
  end.

(** A schedule: the states and events of a sequence of actions, disabled actions being impossible. *)
Inductive urun : ubuf -> list event -> outcome unit ubuf -> Prop :=
| urun_nil : forall s, urun s [] (Ret s)
| urun_step : forall s a s' e es r, ustep s a = Some (Ret (s', e)) -> urun s' es r -> urun s (e :: es) r
| urun_panic : forall s a, ustep s a = Some Panic -> urun s [] Panic.

End Unbounded.
Arguments pc : clear implicits.
Arguments ubuf : clear implicits.
Arguments event : clear implicits.
Arguments action : clear implicits.
