(** Model of go/rx/mono/mono.go and processor.go.  Code only; no proofs.

    User code - sources and callbacks - may call the methods at any time, also from inside callbacks, so execution is a
    small-step machine: a thread is a stack of work items, [User] being user code that may make any further call before
    it returns.  Several threads may run; each work item is one step, so the check of [closed] and the assignment that
    follows it are separate steps, as they are in Go (there is no lock). *)
From Coq Require Import List Arith Bool.
Import ListNotations.

(** go/rx/rx.go:13-20; SignalComplete is the zero value. *)
Inductive signal := SigComplete | SigCancel | SigError.

Section Mono.
Context {T E : Type}.

(** The callbacks of a Subscribe (mono.go:21-26) that are not nil.  OnRequest is stored and never called. *)
Record mcfg := mkCfg { c_success : bool; c_error : bool; c_finally : bool }.

(** mono.go:144-155 subscriber. *)
Record msub := mkSub { s_cfg : mcfg; s_closed : bool; s_value : option T; s_err : option E; s_signal : signal }.

(** mono.go:101-105 mono: all subscribers ever created, the last one being [m.subscriber]; [callbacks], each
    named by the number of its Notify call; the number of Notify calls so far. *)
Record mst := mkM { m_subs : list msub; m_callbacks : list nat; m_notified : nat }.
Definition mono_create : mst := mkM [] [] 0.

(** Calls user code can make: on the mono, and as a sink on the [i]-th subscriber. *)
Inductive mcall :=
| CSubscribe (c : mcfg)
| CNotify
| CGet
| CSuccess (i : nat) (v : T)
| CError (i : nat) (e : E)
| CCancel (i : nat).

(** What can be observed: calls being made, callbacks being run, results of Get. *)
Inductive mevent :=
| EvCall (c : mcall)
| EvSuccess (i : nat) (v : T)
| EvError (i : nat) (e : E)
| EvFinally (i : nat) (s : signal)
| EvNotify (k : nat) (s : signal)
| EvGot (v : option T) (e : option E).

Inductive mitem :=
| User                              (* user code *)
| Do (c : mcall)                    (* a call, up to and including its test of [closed] *)
| Commit (c : mcall)                (* the assignments after that test *)
| Emit (on : bool) (e : mevent)     (* [if cb != nil { cb(...) }] *)
| Fin (i : nat) (s : signal)        (* finally, mono.go:181-189 *)
| RunCbs (s : signal).              (* the loop mono.go:186-188; the slice is evaluated once *)

Definition upd_sub (st : mst) (i : nat) (f : msub -> msub) : mst :=
  mkM (firstn i (m_subs st) ++ match nth_error (m_subs st) i with Some s => [f s] | None => [] end ++ skipn (S i) (m_subs st))
      (m_callbacks st) (m_notified st).

(** One work item: new state, items that replace it, events.  [None]: a Go panic (nil pointer, or Get before
    completion); [User] items are not executed here. *)
Definition mstep (st : mst) (it : mitem) : option (mst * list mitem * list mevent) :=
  let terminal i c :=
    match nth_error (m_subs st) i with
    | None => None                                              (* no such sink exists *)
    | Some s => if s_closed s then Some (st, [], [EvCall c])
                else Some (st, [Commit c], [EvCall c])
    end in
  match it with
  | User => None
  (* mono.go:107-118: [m.source(&wrapper)] is user code *)
  | Do (CSubscribe cfg) =>
    Some (mkM (m_subs st ++ [mkSub cfg false None None SigComplete]) (m_callbacks st) (m_notified st), [User], [EvCall (CSubscribe cfg)])
  (* mono.go:123-135 *)
  | Do CNotify =>
    let k := m_notified st in
    match rev (m_subs st) with
    | s :: _ => if s_closed s
                then Some (mkM (m_subs st) (m_callbacks st) (S k), [Emit true (EvNotify k (s_signal s))], [EvCall CNotify])
                else Some (mkM (m_subs st) (m_callbacks st ++ [k]) (S k), [], [EvCall CNotify])
    | [] => Some (mkM (m_subs st) (m_callbacks st ++ [k]) (S k), [], [EvCall CNotify])
    end
  (* mono.go:137-142 *)
  | Do CGet =>
    match rev (m_subs st) with
    | s :: _ => if s_closed s then Some (st, [], [EvCall CGet; EvGot (s_value s) (s_err s)]) else None
    | [] => None
    end
  (* mono.go:157-160, 169-172, 191-194 *)
  | Do (CSuccess i v) => terminal i (CSuccess i v)
  | Do (CError i e) => terminal i (CError i e)
  | Do (CCancel i) => terminal i (CCancel i)
  (* mono.go:161-166 *)
  | Commit (CSuccess i v) =>
    match nth_error (m_subs st) i with
    | None => None
    | Some s => Some (upd_sub st i (fun s => mkSub (s_cfg s) true (Some v) (s_err s) (s_signal s)),
                      [Emit (c_success (s_cfg s)) (EvSuccess i v); Fin i SigComplete], [])
    end
  (* mono.go:173-178 *)
  | Commit (CError i e) =>
    match nth_error (m_subs st) i with
    | None => None
    | Some s => Some (upd_sub st i (fun s => mkSub (s_cfg s) true (s_value s) (Some e) (s_signal s)),
                      [Emit (c_error (s_cfg s)) (EvError i e); Fin i SigError], [])
    end
  (* mono.go:195-196 *)
  | Commit (CCancel i) =>
    match nth_error (m_subs st) i with
    | None => None
    | Some s => Some (upd_sub st i (fun s => mkSub (s_cfg s) true (s_value s) (s_err s) (s_signal s)), [Fin i SigCancel], [])
    end
  | Commit _ => None
  | Emit true e => Some (st, [User], [e])
  | Emit false e => Some (st, [], [])
  (* mono.go:181-185 *)
  | Fin i sg =>
    match nth_error (m_subs st) i with
    | None => None
    | Some s => Some (upd_sub st i (fun s => mkSub (s_cfg s) (s_closed s) (s_value s) (s_err s) sg),
                      [Emit (c_finally (s_cfg s)) (EvFinally i sg); RunCbs sg], [])
    end
  (* mono.go:186-188 *)
  | RunCbs sg => Some (st, map (fun k => Emit true (EvNotify k sg)) (m_callbacks st), [])
  end.

(** All reachable configurations of a number of threads, with what has been observed so far. *)
Inductive mreach : mst -> list (list mitem) -> list mevent -> Prop :=
| m_init : forall n, mreach mono_create (repeat [User] n) []
| m_call : forall st l stack r tr c, mreach st (l ++ (User :: stack) :: r) tr -> mreach st (l ++ (Do c :: User :: stack) :: r) tr
| m_return : forall st l stack r tr, mreach st (l ++ (User :: stack) :: r) tr -> stack <> [] -> mreach st (l ++ stack :: r) tr
| m_step : forall st l it stack r tr st' its evs, mreach st (l ++ (it :: stack) :: r) tr ->
    mstep st it = Some (st', its, evs) -> mreach st' (l ++ (its ++ stack) :: r) (tr ++ evs).

(** ** Map, mono.go:199-230: what the mapped subscriber sees of an event of the source's subscriber. *)
Definition map_event {D} (tx : T -> D + E) (c : mcfg) (e : mevent) : list (nat * (D + E) + nat * signal) :=
  match e with
  | EvSuccess i v => match tx v with
                     | inr e => if c_error c then [inl (i, inr e)] else []
                     | inl d => if c_success c then [inl (i, inl d)] else []
                     end
  | EvError i e => if c_error c then [inl (i, inr e)] else []
  | EvFinally i s => if c_finally c then [inr (i, s)] else []
  | _ => []
  end.

(** ** processor.go *)

(** ProcessorImpl, processor.go:8-13; the subscribers created so far with the outcomes delivered to each, the last one
    being [p.sink].  Callbacks are assumed not to call back into the processor. *)
Record proc := mkProc { p_success : option T; p_err : option E; p_subs : list (bool * list (T + E)) }.
Definition new_processor : proc := mkProc None None [].

(** The subscriber's Success/Error (mono.go:157-179) on the last subscriber. *)
Definition sink_out (subs : list (bool * list (T + E))) (o : T + E) : list (bool * list (T + E)) :=
  match rev subs with
  | (closed, got) :: r => if closed then subs else rev r ++ [(true, got ++ [o])]
  | [] => subs
  end.

Inductive pcall := PSubscribe | PSuccess (v : T) | PError (e : E).

(** processor.go:15-43. *)
Definition pstep (p : proc) (c : pcall) : proc :=
  match c with
  | PSubscribe =>
    let subs := p_subs p ++ [(false, [])] in
    match p_success p, p_err p with
    | Some v, _ => mkProc (p_success p) (p_err p) (sink_out subs (inl v))
    | None, Some e => mkProc (p_success p) (p_err p) (sink_out subs (inr e))
    | None, None => mkProc (p_success p) (p_err p) subs
    end
  | PSuccess v =>
    match p_subs p with
    | [] => mkProc (Some v) (p_err p) []
    | _ => mkProc (p_success p) (p_err p) (sink_out (p_subs p) (inl v))
    end
  | PError e =>
    match p_subs p with
    | [] => mkProc (p_success p) (Some e) []
    | _ => mkProc (p_success p) (p_err p) (sink_out (p_subs p) (inr e))
    end
  end.
Definition prun (h : list pcall) : proc := fold_left pstep h new_processor.
End Mono.
Arguments msub : clear implicits.
Arguments mst : clear implicits.
Arguments mcall : clear implicits.
Arguments mevent : clear implicits.
Arguments mitem : clear implicits.
Arguments proc : clear implicits.
Arguments pcall : clear implicits.
