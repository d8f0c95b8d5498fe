(** What a streaming call that a Rust guest serves owes its Go subscriber. *)
From Coq Require Import List NArith ZArith Bool.
From Verif Require Import Base FramesModel FramesSpec InvokeModel MonoModel FluxModel FluxSpec ProxyModel ProxySpec DispatchModel DispatchSpec ResponderModel StreamModel StreamSpec RustStreamModel.
From Verif Require RustCallModel.
Import ListNotations.

(** What is sent into a flux before its end. *)
Fixpoint until_finish (l : list rsig) : list rsig := match l with [] | Finish :: _ => [] | s :: l' => s :: until_finish l' end.
(** The calls on a flux that a subscriber of its own would see, had it been sent. *)
Definition as_call (s : rsig) : fcall pay bytes := match s with Item v => FNext v | Problem e => FluxModel.FError e | Finish => FComplete end.
Definition as_calls (l : list saying) : list (fcall pay bytes) :=
  map (fun s => match s with
                | Told s => as_call s
                | Ended => FComplete
                | Complained n => FluxModel.FError (if (n =? 0)%N then RustCallModel.invalid_n else RustCallModel.missing_id)
                end) l.
(** Without the complaints; the complaints alone. *)
Definition plain (l : list saying) : list saying := filter (fun s => match s with Complained _ => false | _ => true end) l.
Definition complaints (l : list saying) : list N := flat_map (fun s => match s with Complained n => [n] | _ => [] end) l.

Section Spec.
Context {Hg Hr : Type}.
Context (w : site) (go_tbl : ikind -> list (option Hg)) (sp : bool) (g : fcfg) (tbl : list Hr) (sid : N) (data md : bytes).
Notation rconf := (rconf Hg Hr).

(** Executions in which items are sendable; other traffic belongs to other streams. *)
Definition s_allowed (m : smove) : Prop :=
  match m with
  | SPush _ s => sendable_call (as_call s)
  | SUp bs => foreign sid bs /\ wf bs
  | SDown bs => foreign sid bs
  | _ => True
  end.
Inductive s_reach : rconf -> Prop :=
| sr_init : forall n, s_reach (rs_create n)
| sr_move : forall c m c', s_reach c -> s_allowed m -> s_move w go_tbl sp g tbl sid data md c m = Some c' -> s_reach c'.

Definition s_subscriber (c : rconf) : list (fevent pay bytes) := flat_map (fun e => match e with PV v => [v] | _ => [] end) (s_ptr c).
Definition s_seen (c : rconf) : list (fevent pay bytes) := delivered (s_subscriber c).
Definition s_undisturbed (c : rconf) : Prop := ~ In (@FluxModel.FCancel pay bytes) (fcalls (s_subscriber c)) /\ ~ In FClose (fcalls (s_subscriber c)).
Definition s_opened (c : rconf) : Prop := exists r, In (FramesModel.FRequest r) (frames_sent (s_ptr c)).
(** The requests of more items that were sent after the one that opened the stream. *)
Definition further (c : rconf) : list N := flat_map (fun f => match f with FRequestN _ n => [n] | _ => [] end) (frames_sent (s_ptr c)).

(** No frame is on its way, the dispatcher has nothing to do, and the guest's task is over or waits for its handler. *)
Definition settled (t : stask) : bool := match t with Over | Open [] true => true | _ => false end.
Definition s_rest (c : rconf) : Prop :=
  s_up c = [] /\ s_down c = [] /\ s_ptodo c = [] /\ (exists us, s_pths c = [PI FUser] :: us) /\ forallb settled (s_tasks c) = true.
(** The guest has said the end. *)
Definition finished (c : rconf) : bool := existsb (fun t => match t with Over => true | _ => false end) (s_tasks c).
End Spec.
