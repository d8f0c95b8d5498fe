(** Model of the ways to get at the outcome of a mono - Subscribe, Block, Get and Notify of go/rx/mono/mono.go and
    mono_host.go, over any nesting of Just, Error, Create and Map - and of Block in go/rx/flux/flux_host.go.  Code only;
    no proofs. *)
From Coq Require Import List Arith Bool.
From Verif Require Import MonoModel FluxModel.
Import ListNotations.

Section Outcome.
Context {V E : Type}.
(** The zero value, [var dummy T] in mono.go:50 and [ret] in mono_host.go:10.  All stages have one type of values. *)
Context (zero : V).

(** The monos that can be built: mono.go:62-64 Just, mono.go:34-36 Error, mono.go:95-99 Create, mono.go:199-204 Map.
    [Created prev src]: if the mono has been subscribed before, [prev] is what was called on that subscription so far;
    [src] is what will be called on the next one - by its source or anybody else - in order.  What concurrent and
    re-entrant calls do is the subject of [MonoModel]; here the calls on a subscription are a list. *)
Inductive sink_call := KSuccess (v : V) | KError (e : E) | KCancel.
Inductive mono_expr :=
| Just (v : V)
| MError (e : E)
| Created (prev : option (list sink_call)) (src : list sink_call)
| Map (m : mono_expr) (tx : V -> V + E).

(** mono.go:21-26, each callback giving what can be seen of it; OnRequest is never called. *)
Record subscribe_cfg {O : Type} := mkSubscribe { on_success : option (V -> list O); on_error : option (E -> list O); finally : option (signal -> list O) }.
Arguments subscribe_cfg : clear implicits.
Arguments mkSubscribe {O} _ _ _.
Definition call {A O} (f : option (A -> list O)) (a : A) : list O := match f with Some f => f a | None => [] end.

(** mono.go:144-197: the fields of a subscriber. *)
Record subscriber := mkSubscriber { closed : bool; value : V; err : option E; sig : signal }.
Definition new_subscriber : subscriber := mkSubscriber false zero None SigComplete.

(** mono.go:157-197 (the Notify callbacks of lines 186-188 are left out: see [MonoModel]). *)
Definition sink_step {O} (sub : subscribe_cfg O) (s : subscriber) (c : sink_call) : subscriber * list O :=
  if closed s then (s, [])
  else match c with
       | KSuccess v => (mkSubscriber true v (err s) SigComplete, call (on_success sub) v ++ call (finally sub) SigComplete)
       | KError e => (mkSubscriber true (value s) (Some e) SigError, call (on_error sub) e ++ call (finally sub) SigError)
       | KCancel => (mkSubscriber true (value s) (err s) SigCancel, call (finally sub) SigCancel)
       end.
Fixpoint sink_calls {O} (sub : subscribe_cfg O) (s : subscriber) (l : list sink_call) : subscriber * list O :=
  match l with
  | [] => (s, [])
  | c :: l' => let '(s1, o1) := sink_step sub s c in let '(s2, o2) := sink_calls sub s1 l' in (s2, o1 ++ o2)
  end.

(** Subscribe: mono.go:42-47, 70-75, 107-118, 211-230.  What the subscriber sees, once the source is done. *)
Fixpoint subscribe {O} (m : mono_expr) (sub : subscribe_cfg O) : list O :=
  match m with
  | Just v => call (on_success sub) v
  | MError e => call (on_error sub) e
  | Created _ src => snd (sink_calls sub new_subscriber src)
  | Map m tx =>
    subscribe m (mkSubscribe
      (Some (fun v => match tx v with inr e => call (on_error sub) e | inl d => call (on_success sub) d end))
      (on_error sub) (finally sub))
  end.

(** The subscriber of a mono subscribed to before, as it is now. *)
Definition no_callbacks : subscribe_cfg unit := mkSubscribe None None None.
Definition subscriber_of (prev : option (list sink_call)) : option subscriber :=
  option_map (fun l => fst (sink_calls no_callbacks new_subscriber l)) prev.

(** Get: mono.go:54-57, 81-83, 137-142, 240-247.  [None]: a panic (nil pointer, or "mono: Get called before
    completion").  A transform that fails also returns some value, here the zero value. *)
Fixpoint get (m : mono_expr) : option (V * option E) :=
  match m with
  | Just v => Some (v, None)
  | MError e => Some (zero, Some e)
  | Created prev _ =>
    match subscriber_of prev with
    | Some s => if closed s then Some (value s, err s) else None
    | None => None
    end
  | Map m tx =>
    match get m with
    | Some (_, Some e) => Some (zero, Some e)
    | Some (v, None) => match tx v with inl d => Some (d, None) | inr e => Some (zero, Some e) end
    | None => None
    end
  end.

(** Notify, mono.go:59-61, 89-91, 123-135, 236-238: the signal the callback is run with at once, if it is. *)
Fixpoint notify (m : mono_expr) : option signal :=
  match m with
  | Just _ => Some SigComplete
  | MError _ => Some SigError
  | Created prev _ => match subscriber_of prev with Some s => if closed s then Some (sig s) else None | None => None end
  | Map m _ => notify m
  end.

(** Block.  The two callbacks of mono_host.go:18-25 store what they get and close a channel, which panics the second
    time; the caller goes on once it is closed. *)
Inductive blocked := BReturn (v : V) (e : option E) | BHang | BPanic.
Definition closers : subscribe_cfg (V + E) := mkSubscribe (Some (fun v => [inl v])) (Some (fun e => [inr e])) None.
Definition await (l : list (V + E)) : blocked :=
  match l with
  | [] => BHang
  | [inl v] => BReturn v None
  | [inr e] => BReturn zero (Some e)
  | _ => BPanic
  end.
(** mono.go:49-52, 77-79, mono_host.go:10-31, 33-50. *)
Definition block (m : mono_expr) : blocked :=
  match m with
  | Just v => BReturn v None
  | MError e => BReturn zero (Some e)
  | Created prev _ =>
    match subscriber_of prev with
    | Some s => if closed s then BReturn (value s) (err s) else await (subscribe m closers)
    | None => await (subscribe m closers)
    end
  | Map _ _ => await (subscribe m closers)
  end.

(** The same mono once the next subscription has been made and has run. *)
Fixpoint settled (m : mono_expr) : mono_expr :=
  match m with
  | Created _ src => Created (Some src) src
  | Map m tx => Map (settled m) tx
  | m => m
  end.
End Outcome.
Arguments sink_call : clear implicits.
Arguments mono_expr : clear implicits.
Arguments subscribe_cfg : clear implicits.
Arguments blocked : clear implicits.

(** ** Block on a flux, flux_host.go:40-59 *)
Section FluxBlock.
Context {T E : Type}.

(** flux_host.go:41-54: the callbacks Block subscribes with, given the user's. *)
Definition block_cfg (g : fcfg) : fcfg := mkF (k_next g) (k_complete g) true (k_request g) true (k_norequest g).

(** flux_host.go:43-56: OnError stores the error; Finally closes [done] after running the user's Finally, so that what
    has been stored by then is returned; a second close panics.  (Finally run again inside the user's Finally closes in
    another order, as often.) *)
Inductive block_state := BlockWait (err : option E) | BlockReturn (err : option E) | BlockPanic.
Definition block_step (b : block_state) (e : fevent T E) : block_state :=
  match e, b with
  | VError e, BlockWait _ => BlockWait (Some e)
  | VFinally _, BlockWait err => BlockReturn err
  | VFinally _, BlockReturn _ => BlockPanic
  | _, b => b
  end.
Definition flux_block (tr : list (fevent T E)) : block_state := fold_left block_step tr (BlockWait None).

(** flux_host.go:28-34: the method of a created flux reads [f.subscriber.closed] first; [None]: nil pointer dereference.
    [sub]: closed and err of the subscriber, if the flux has been subscribed to; [rest]: what Block(f, sub) does. *)
Definition created_block (sub : option (bool * option E)) (rest : block_state) : option block_state :=
  match sub with
  | None => None
  | Some (true, err) => Some (BlockReturn err)
  | Some (false, _) => Some rest
  end.
End FluxBlock.
Arguments block_state : clear implicits.
