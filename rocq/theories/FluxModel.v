(** Model of go/rx/flux/flux.go, flux_host.go, flux_webassembly.go, slice.go and response.go.  Code only; no proofs.

    As in [MonoModel]: user code - the source, the callbacks, anybody holding the subscription - may call the methods at
    any time, also from inside callbacks, so execution is a small-step machine whose threads are stacks of work items.
    One subscription of one flux is followed, with the callbacks [g]. *)
From Coq Require Import List Arith ZArith Bool.
From Verif Require Import MonoModel.
Import ListNotations.

(** The callbacks of a Subscribe (flux.go:17-24) that are not nil, and NoRequest. *)
Record fcfg := mkF { k_next : bool; k_complete : bool; k_error : bool; k_request : bool; k_finally : bool; k_norequest : bool }.

Section Flux.
Context {T E : Type}.
(** [true]: flux_webassembly.go:11-13, a request runs the source at once.
    [false]: flux_host.go:20-26, it runs in a new goroutine (the lock, which only keeps such goroutines from overlapping
    each other, is left out). *)
Context (sync : bool).
Context (g : fcfg).

(** flux.go:73-77 and 109-125: subscriber exists, closed, n (unbounded here), sub.Request and sub.Cancel not nil, signal,
    callbacks by the number of their Notify call, number of Notify calls. *)
Record flst := mkFl { f_sub : bool; f_closed : bool; f_n : Z; f_req : bool; f_can : bool; f_signal : signal;
                      f_cbs : list nat; f_notified : nat }.
Definition flux_create : flst := mkFl false false 0 false false SigComplete [] 0.

Inductive fcall :=
| FSubscribe
| FNotify
| FNext (v : T)                          (* as sink *)
| FComplete
| FError (e : E)
| FOnSubscribe (request cancel : bool)   (* the functions that are not nil *)
| FRequest (n : Z)                       (* as subscription *)
| FCancel
| FClose.

Inductive fevent :=
| VCall (c : fcall)
| VNext (v : T)
| VComplete
| VError (e : E)
| VFinally (s : signal)
| VOnRequest                             (* OnRequest is run *)
| VReqSrc (n : Z)                        (* the source's Request is run *)
| VCancelSrc                             (* the source's Cancel is run *)
| VNotify (k : nat) (s : signal).

Inductive fitem :=
| FUser                                  (* user code *)
| FSrc (n : Z)                           (* the body of the source's Request(n) *)
| FDo (c : fcall)                        (* a call, up to and including its test of [closed] *)
| FCommit (c : fcall)                    (* what follows the test *)
| FEmit (on : bool) (e : fevent)         (* [if cb != nil { cb(...) }] *)
| FAfter                                 (* flux.go:136-138 *)
| FHandle                                (* handleOnSubscribe, flux.go:184-193 *)
| FReq (n : Z)                           (* Request, flux.go:195-200 *)
| FDoReq (n : Z)                         (* doRequest *)
| FRunSrc (n : Z)                        (* s.sub.Request(n) *)
| FFin (s : signal)                      (* finally, flux.go:164-172 *)
| FRunCbs (s : signal).

Definition request_max : Z := 2147483647.

Definition set_closed (st : flst) : flst :=
  mkFl (f_sub st) true (f_n st) (f_req st) (f_can st) (f_signal st) (f_cbs st) (f_notified st).
Definition set_n (st : flst) (n : Z) : flst :=
  mkFl (f_sub st) (f_closed st) n (f_req st) (f_can st) (f_signal st) (f_cbs st) (f_notified st).
Definition set_signal (st : flst) (s : signal) : flst :=
  mkFl (f_sub st) (f_closed st) (f_n st) (f_req st) (f_can st) s (f_cbs st) (f_notified st).
Definition set_cbs (st : flst) (l : list nat) : flst :=
  mkFl (f_sub st) (f_closed st) (f_n st) (f_req st) (f_can st) (f_signal st) l (S (f_notified st)).

(** One work item: new state, items that replace it, new threads, events.  [None]: a panic, a method of a subscriber that
    does not exist yet, or a second Subscribe (not followed). *)
Definition fstep (st : flst) (it : fitem) : option (flst * list fitem * list (list fitem) * list fevent) :=
  let guarded c := if f_closed st then Some (st, [], [], [VCall c]) else Some (st, [FCommit c], [], [VCall c]) in
  match it with
  | FUser | FSrc _ => None
  (* flux.go:79-93: the source is user code *)
  | FDo FSubscribe =>
    if f_sub st then None
    else Some (mkFl true (f_closed st) (f_n st) (f_req st) (f_can st) (f_signal st) (f_cbs st) (f_notified st),
               [FUser; FHandle], [], [VCall FSubscribe])
  (* flux.go:101-107 *)
  | FDo FNotify =>
    let k := f_notified st in
    if f_sub st && f_closed st
    then Some (set_cbs st (f_cbs st), [FEmit true (VNotify k (f_signal st))], [], [VCall FNotify])
    else Some (set_cbs st (f_cbs st ++ [k]), [], [], [VCall FNotify])
  | FDo c =>
    if negb (f_sub st) then None else
    match c with
    (* flux.go:128-130, 142-144, 153-155, 175-177 *)
    | FNext _ | FComplete | FError _ | FOnSubscribe _ _ => guarded c
    (* flux.go:195 *)
    | FRequest n => Some (st, [FReq n], [], [VCall c])
    (* flux.go:202-210 *)
    | FCancel => Some (set_closed st, [FEmit (f_can st) VCancelSrc; FEmit (k_finally g) (VFinally SigCancel)], [], [VCall c])
    (* flux.go:212-214 *)
    | FClose => Some (set_closed st, [], [], [VCall c])
    | _ => None
    end
  (* flux.go:131-138 *)
  | FCommit (FNext v) => Some (set_n st (f_n st - 1), [FEmit (k_next g) (VNext v); FAfter], [], [])
  (* flux.go:145-149 *)
  | FCommit FComplete => Some (set_closed st, [FEmit (k_complete g) VComplete; FFin SigComplete], [], [])
  (* flux.go:156-161 *)
  | FCommit (FError e) => Some (set_closed st, [FEmit (k_error g) (VError e); FFin SigError], [], [])
  (* flux.go:178-181 *)
  | FCommit (FOnSubscribe r c) =>
    Some (mkFl (f_sub st) (f_closed st) (f_n st) r c (f_signal st) (f_cbs st) (f_notified st),
          if (0 <? f_n st)%Z then [FDoReq (f_n st)] else [], [], [])
  | FCommit _ => None
  | FEmit true (VReqSrc n) => Some (st, [FSrc n], [], [VReqSrc n])
  | FEmit true e => Some (st, [FUser], [], [e])
  | FEmit false _ => Some (st, [], [], [])
  | FAfter => Some (st, if (f_n st =? 0)%Z then [FHandle] else [], [], [])
  | FHandle => Some (st, if k_norequest g then [] else if k_request g then [FEmit true VOnRequest] else [FReq request_max], [], [])
  | FReq n => Some (set_n st (f_n st + n), if f_req st then [FDoReq n] else [], [], [])
  | FDoReq n => if sync then Some (st, [FRunSrc n], [], []) else Some (st, [], [[FRunSrc n]], [])
  | FRunSrc n => if f_req st then Some (st, [FEmit true (VReqSrc n)], [], []) else None
  | FFin s => Some (set_signal st s, [FEmit (k_finally g) (VFinally s); FRunCbs s], [], [])
  | FRunCbs s => Some (st, map (fun k => FEmit true (VNotify k s)) (f_cbs st), [], [])
  end.

Definition is_user (it : fitem) : bool := match it with FUser | FSrc _ => true | _ => false end.

(** All reachable configurations of a number of threads, with what has been observed so far. *)
Inductive freach : flst -> list (list fitem) -> list fevent -> Prop :=
| f_init : forall n, freach flux_create (repeat [FUser] n) []
| f_call : forall st l u stack r tr c, freach st (l ++ (u :: stack) :: r) tr -> is_user u = true ->
    freach st (l ++ (FDo c :: u :: stack) :: r) tr
| f_return : forall st l u stack r tr, freach st (l ++ (u :: stack) :: r) tr -> is_user u = true -> stack <> [] ->
    freach st (l ++ stack :: r) tr
| f_step : forall st l it stack r tr st' its new evs, freach st (l ++ (it :: stack) :: r) tr ->
    fstep st it = Some (st', its, new, evs) -> freach st' (l ++ (its ++ stack) :: r ++ new) (tr ++ evs).

(** ** Map, flux.go:232-256: what the mapped subscriber sees of an event of the source's subscriber (a *flux has no
    Close method, so the test in lines 236-238 fails and the source stays open). *)
End Flux.
Arguments fcall : clear implicits.
Arguments fevent : clear implicits.
Arguments fitem : clear implicits.

Definition fmap_event {T E D} (tx : T -> D + E) (g : fcfg) (e : fevent T E) : list (fevent D E) :=
  match e with
  | VNext v => match tx v with
               | inl d => if k_next g then [VNext d] else []
               | inr e => (if k_error g then [VError e] else []) ++ (if k_finally g then [VFinally SigError] else [])
               end
  | VComplete => if k_complete g then [VComplete] else []
  | VError e => if k_error g then [VError e] else []
  | VFinally s => if k_finally g then [VFinally s] else []
  | _ => []
  end.
