(** What callers and handlers joined by two WasmSockets are to see of each other: written without frames, maps and counters. *)
From Coq Require Import List NArith Bool.
From Verif Require Import Base ProxyModel RustFramesModel RustSocketModel RustSocketSpec RustPairModel.
From Verif Require RustCallModel RustStreamModel.
Import ListNotations.
Open Scope N_scope.

(** The moves at each side. *)
Definition side_a (ms : list pmove) : list kmove := flat_map (fun m => match m with PA m => [m] | _ => [] end) ms.
Definition side_b (ms : list pmove) : list kmove := flat_map (fun m => match m with PB m => [m] | _ => [] end) ms.
Definition few (ms : list pmove) : Prop := calls (side_a ms) <= 2 ^ 31 /\ calls (side_b ms) <= 2 ^ 31.

(** An error crosses with the code of an application error; one without text gets one. *)
Definition failure (e : bytes) : news := NFail 513 (match e with [] => RustCallModel.no_data | _ => e end).
(** What one result tells the caller. *)
Definition answer (x : signal) : list news := match x with SOk p => [NItem p] | SErr e => [failure e] | SComplete => [] end.
(** What the signals of a flux tell who reads it at the other side: up to the first error or its end. *)
Fixpoint news_of (l : list signal) : list news :=
  match l with
  | SOk p :: r => NItem p :: news_of r
  | SErr e :: _ => [failure e]
  | _ => []
  end.
(** What the input of a channel tells the handler that serves it: an error has another text there. *)
Fixpoint input_of (l : list signal) : list news :=
  match l with
  | SOk p :: r => NItem p :: input_of r
  | SErr _ :: _ => [failure channel_failed]
  | _ => []
  end.

(** The id of a call of the side. *)
Definition own (sd : sside) (sid : N) : Prop := sid mod 2 = first_id sd mod 2.
(** Nothing is under way: all frames are processed and no task can go on. *)
Definition at_rest (p : pair) : Prop :=
  p_da p = length (k_out (p_b p)) /\ p_db p = length (k_out (p_a p)) /\
  (forall i, k_move (p_a p) (KCaller i) = None /\ k_move (p_b p) (KCaller i) = None) /\ (forall j, k_move (p_a p) (KServe j) = None /\ k_move (p_b p) (KServe j) = None).
(** The receiver of the k-th handler was dropped. *)
Definition drops (k : nat) (ms : list kmove) : bool := existsb (fun m => match m with KDrop k' => Nat.eqb k' k | _ => false end) ms.
(** The request frames. *)
Definition is_request (f : rframe) : bool := match f with RRequestFnF _ | RRequestResponse _ | RRequestStream _ | RRequestChannel _ => true | _ => false end.
Definition frames (h : list event) : list rframe := flat_map (fun e => match e with EFrame f => [f] | _ => [] end) h.

(** The c-th call of a side has its c-th id. *)
Definition call_of (sd : sside) (ms : list kmove) (sid : N) (m : kmove) : Prop := exists c, nth_error (filter is_call ms) c = Some m /\ sid = (first_id sd + 2 * N.of_nat c) mod 2 ^ 32.
(** The call is for a request of this kind with this payload. *)
Definition asks (m : kmove) (v : skind) (x : pay) : Prop :=
  match m, v with
  | KCall CFnF p, VFnF | KCall CRR p, VRR | KCall CStream p, VStream => p = x
  | KChannel, VChannel => True
  | _, _ => False
  end.
(** One end of the pair with its moves, and the other. *)
Inductive facing (sd : sside) (ms : list pmove) (p : pair) : sside -> list kmove -> sock -> list kmove -> sock -> Prop :=
| facing_a : facing sd ms p sd (side_a ms) (p_a p) (side_b ms) (p_b p)
| facing_b : facing sd ms p (other sd) (side_b ms) (p_b p) (side_a ms) (p_a p).
