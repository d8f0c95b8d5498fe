(** Model of go/proxy/lookup.go with goroutines: Get takes no lock, Add and Remove hold the mutex.  Every read or
    write of a pointer that another goroutine can see happens in a step of its own.
    Simplifications: pointers are read and written whole and in the order of the steps (the Go memory model promises
    that only without data races, and Get races with the others); the stream of a node never changes, so its id is
    read with the pointer to it; reads of pointers that only the holder of the mutex writes are taken together with
    the step that uses them. *)
From Coq Require Import List NArith Bool Arith.
From Verif Require Import Base LookupModel.
Import ListNotations.
Open Scope nat_scope.

Section Race.
Context {S : Type}.

(** A call of one of the three methods. *)
Inductive rcall := CGet (id : N) | CAdd (id : N) (s : S) | CRemove (id : N).

(** Where a goroutine is. *)
Inductive rpc :=
| GHead                          (* lookup.go:68: about to read l.head *)
| GAt (p : option nat)           (* lookup.go:68-69: n is p *)
| GNext (a : nat)                (* lookup.go:68: about to read n.next *)
| GDone (r : option S)           (* lookup.go:18-24: Get has returned r *)
| ALock                          (* lookup.go:27 *)
| ANew                           (* lookup.go:30-32 *)
| AHead (a : nat)                (* lookup.go:33: a is newNode *)
| AFirst (a : nat)               (* lookup.go:34 *)
| AWalk (a cur : nat)            (* lookup.go:38-40 *)
| APrev (a cur : nat)            (* lookup.go:41 *)
| APub (a cur : nat)             (* lookup.go:42 *)
| ATail (a : nat)                (* lookup.go:35, 43 *)
| RLock                          (* lookup.go:48 *)
| RHead                          (* lookup.go:51, 68 *)
| RAt (p : option nat)           (* lookup.go:68-69 *)
| RNext (a : nat)                (* lookup.go:68 *)
| RCut (a : nat)                 (* lookup.go:56-61: a is nodeToDelete *)
| RBack (a : nat)                (* lookup.go:62-64 *)
| WUnlock                        (* lookup.go:28, 49: the deferred Unlock *)
| WDone                          (* Add or Remove has returned *)
| Crash.                         (* a nil pointer was dereferenced *)

(** A goroutine in a call.  Bookkeeping for the specification: [t_from] and [t_till] are how many Adds and Removes had
    taken effect when the call was made and when it returned, [t_steps] how many steps it has taken. *)
Record rthread := mkT { t_call : rcall; t_pc : rpc; t_from : nat; t_till : nat; t_steps : nat }.

(** The registry, the holder of its mutex, the goroutines.  Bookkeeping: [w_hist] lists the Adds and Removes in the
    order of the writes that make them visible, with the goroutine. *)
Record world := mkW { w_l : lookup S; w_lock : option nat; w_ths : list rthread; w_hist : list (nat * lop S) }.

Definition world0 : world := mkW empty_lookup None [] [].

Definition entry_pc (c : rcall) : rpc := match c with CGet _ => GHead | CAdd _ _ => ALock | CRemove _ => RLock end.
Definition call_id (c : rcall) : N := match c with CGet id => id | CAdd id _ => id | CRemove id => id end.

Fixpoint set_nth {A} (l : list A) (i : nat) (x : A) : list A :=
  match l, i with
  | [], _ => []
  | _ :: l', O => x :: l'
  | y :: l', Datatypes.S i' => y :: set_nth l' i' x
  end.

Definition with_heap (l : lookup S) (h : nat -> option (node S)) : lookup S := mkL h (l_alloc l) (l_head l) (l_tail l).

(** What one step of goroutine [i] at [pc] in call [c] does: the registry, the mutex, the goroutine's next place and the
    operations that take effect.  [None]: it cannot move (it has returned, or waits for the mutex). *)
Definition effect (c : rcall) (i : nat) (pc : rpc) (l : lookup S) (lock : option nat)
  : option (lookup S * option nat * rpc * list (nat * lop S)) :=
  let h := l_heap l in
  match pc with
  | GHead => Some (l, lock, GAt (l_head l), [])
  | GAt None => Some (l, lock, GDone None, [])
  | GAt (Some a) =>
    match h a with
    | None => Some (l, lock, Crash, [])
    | Some n => Some (l, lock, if N.eqb (n_id n) (call_id c) then GDone (Some (n_stream n)) else GNext a, [])
    end
  | GNext a => match h a with None => Some (l, lock, Crash, []) | Some n => Some (l, lock, GAt (n_next n), []) end
  | GDone _ => None
  | ALock => match lock with None => Some (l, Some i, ANew, []) | Some _ => None end
  | ANew =>
    match c with
    | CAdd id s => Some (mkL (upd h (l_alloc l) (mkNode None None id s)) (Datatypes.S (l_alloc l)) (l_head l) (l_tail l),
                         lock, AHead (l_alloc l), [])
    | _ => None
    end
  | AHead a => Some (l, lock, match l_head l with None => AFirst a | Some cur => AWalk a cur end, [])
  | AFirst a =>
    match c with
    | CAdd id s => Some (mkL h (l_alloc l) (Some a) (l_tail l), lock, ATail a, [(i, OAdd id s)])
    | _ => None
    end
  | AWalk a cur =>
    match h cur with
    | None => Some (l, lock, Crash, [])
    | Some n => Some (l, lock, match n_next n with None => APrev a cur | Some nx => AWalk a nx end, [])
    end
  | APrev a cur => Some (with_heap l (set_prev h a (Some cur)), lock, APub a cur, [])
  | APub a cur =>
    match c with
    | CAdd id s => Some (with_heap l (set_next h cur (Some a)), lock, ATail a, [(i, OAdd id s)])
    | _ => None
    end
  | ATail a => Some (mkL h (l_alloc l) (l_head l) (Some a), lock, WUnlock, [])
  | RLock => match lock with None => Some (l, Some i, RHead, []) | Some _ => None end
  | RHead => Some (l, lock, RAt (l_head l), [])
  | RAt None => Some (l, lock, WUnlock, [(i, ORemove (call_id c))])
  | RAt (Some a) =>
    match h a with
    | None => Some (l, lock, Crash, [])
    | Some n => Some (l, lock, if N.eqb (n_id n) (call_id c) then RCut a else RNext a, [])
    end
  | RNext a => match h a with None => Some (l, lock, Crash, []) | Some n => Some (l, lock, RAt (n_next n), []) end
  | RCut a =>
    match h a with
    | None => Some (l, lock, Crash, [])
    | Some n => Some (with_heap l (match n_prev n with Some p => set_next h p (n_next n) | None => h end),
                      lock, RBack a, [(i, ORemove (call_id c))])
    end
  | RBack a =>
    match h a with
    | None => Some (l, lock, Crash, [])
    | Some n => Some (with_heap l (match n_next n with Some q => set_prev h q (n_prev n) | None => h end),
                      lock, WUnlock, [])
    end
  | WUnlock => Some (l, None, WDone, [])
  | WDone => None
  | Crash => None
  end.

(** Goroutine [i] takes one step. *)
Definition tstep (w : world) (i : nat) : option world :=
  match nth_error (w_ths w) i with
  | None => None
  | Some t =>
    match effect (t_call t) i (t_pc t) (w_l w) (w_lock w) with
    | None => None
    | Some (l, lock, pc, ops) =>
      let hist := w_hist w ++ ops in
      Some (mkW l lock (set_nth (w_ths w) i (mkT (t_call t) pc (t_from t) (length hist) (Datatypes.S (t_steps t)))) hist)
    end
  end.

(** A goroutine makes a call. *)
Definition call (w : world) (c : rcall) : world :=
  mkW (w_l w) (w_lock w) (w_ths w ++ [mkT c (entry_pc c) (length (w_hist w)) (length (w_hist w)) 0]) (w_hist w).

Inductive rmove := MCall (c : rcall) | MStep (i : nat).

Definition rstep (w : world) (m : rmove) : option world :=
  match m with MCall c => Some (call w c) | MStep i => tstep w i end.

Fixpoint rrun (w : world) (ms : list rmove) : option world :=
  match ms with
  | [] => Some w
  | m :: ms' => match rstep w m with None => None | Some w' => rrun w' ms' end
  end.

End Race.
Arguments rcall : clear implicits.
Arguments rpc : clear implicits.
Arguments rthread : clear implicits.
Arguments world : clear implicits.
Arguments rmove : clear implicits.
