(** What a streaming call owes its subscriber. *)
From Coq Require Import List NArith ZArith Bool.
From Verif Require Import Base FramesModel FramesSpec InvokeModel MonoModel FluxModel FluxSpec ProxyModel ProxySpec DispatchModel DispatchSpec ResponderModel ResponderSpec StreamModel.
From Verif Require CallModel.
Import ListNotations.

Section Spec.
Context {H : Type}.
Context (wp wr : site) (tp tr : ikind -> list (option H)) (sp sr : bool) (g : fcfg) (sid : N) (data md : bytes).

(** Items and errors that a frame can carry, with metadata that survives (C03). *)
Definition sendable_call (c : fcall pay bytes) : Prop :=
  match c with
  | FNext (d, m) => (len m < 2^24)%N /\ fits32 m d
  | FluxModel.FError e => (len e < 2^32 - 13)%N
  | _ => True
  end.
(** Executions in which items are sendable and no two sink calls overlap; other traffic belongs to other streams. *)
Definition foreign (bs : bytes) : Prop := exists f, frame_parse bs = Ret (Some f) /\ frame_sid f <> sid.
Definition allowed (c : conf H) (m : move) : Prop :=
  match m with
  | MRCall _ f => sendable_call f
  | MRStep i => forall it stack, nth_error (c_rths c) i = Some (it :: stack) -> begins it = true -> idle (c_rths c) = true
  | MUp bs | MDown bs => foreign bs
  | _ => True
  end.
Inductive sreach : conf H -> Prop :=
| s_init : forall n m, sreach (stream_create n m)
| s_move : forall c m c', sreach c -> allowed c m -> do_move wp wr tp tr sp sr g sid data md c m = Some c' -> sreach c'.

(** What the subscriber's callbacks have seen; the calls made on the flux the handler returned. *)
Definition subscriber (c : conf H) : list (fevent pay bytes) := flat_map (fun e => match e with PV v => [v] | _ => [] end) (c_ptr c).
Definition seen (c : conf H) : list (fevent pay bytes) := delivered (subscriber c).
Definition emitted (c : conf H) : list (fcall pay bytes) := out_calls (c_rtr c).

(** The subscriber has neither cancelled nor closed its subscription. *)
Definition undisturbed (c : conf H) : Prop := ~ In (@FluxModel.FCancel pay bytes) (fcalls (subscriber c)) /\ ~ In FClose (fcalls (subscriber c)).
(** No frame is on its way, both dispatchers have nothing to do, no goroutine waits and no sink call is under way. *)
Definition at_rest (c : conf H) : Prop :=
  c_up c = [] /\ c_down c = [] /\ c_ptodo c = [] /\ c_rtodo c = [] /\ c_tasks c = [] /\ (exists us, c_pths c = [PI FUser] :: us) /\ idle (c_rths c) = true.

(** The frame that opens the stream has been sent. *)
Definition opened (c : conf H) : Prop := exists r, In (FramesModel.FRequest r) (frames_sent (c_ptr c)).
(** The credit that arrived: initialN of handlers run, and RequestN frames. *)
Definition arrived (c : conf H) : N :=
  fold_right N.add 0%N (map snd (c_runs c)) + fold_right N.add 0%N (flat_map (fun e => match e with RNet (RNRequest n) => [n] | _ => [] end) (c_rtr c)).
End Spec.
