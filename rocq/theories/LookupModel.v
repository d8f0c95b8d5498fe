(** Model of go/proxy/lookup.go: a doubly linked list with explicit heap and pointers. *)
From Coq Require Import List NArith Bool Arith.
From Verif Require Import Base.
Import ListNotations.

Section Lookup.
Context {S : Type}.

(** go/proxy/lookup.go:12-15 node; the stream is its id (Stream.StreamID) and the stream itself. *)
Record node := mkNode { n_prev : option nat; n_next : option nat; n_id : N; n_stream : S }.

(** go/proxy/lookup.go:6-10 Lookup, with the heap it points into; [l_alloc] is the next free address.
    Simplification: the methods are atomic (Add and Remove hold the mutex; Get does not take it). *)
Record lookup := mkL { l_heap : nat -> option node; l_alloc : nat; l_head : option nat; l_tail : option nat }.

(** Zero value of Lookup. *)
Definition empty_lookup : lookup := mkL (fun _ => None) 0 None None.

(** Pointer write. *)
Definition upd (h : nat -> option node) (i : nat) (n : node) : nat -> option node :=
  fun j => if Nat.eqb j i then Some n else h j.

(** [n.next = p] / [n.prev = p] through a pointer. *)
Definition set_next (h : nat -> option node) (i : nat) (p : option nat) :=
  match h i with Some n => upd h i (mkNode (n_prev n) p (n_id n) (n_stream n)) | None => h end.
Definition set_prev (h : nat -> option node) (i : nat) (p : option nat) :=
  match h i with Some n => upd h i (mkNode p (n_next n) (n_id n) (n_stream n)) | None => h end.

(** go/proxy/lookup.go:67-74 find, starting at pointer [p]. [None]: still walking after [fuel] nodes. *)
Fixpoint find_from (fuel : nat) (h : nat -> option node) (p : option nat) (id : N) : option (option nat) :=
  match p with
  | None => Some None
  | Some i =>
    match fuel with
    | O => None
    | Datatypes.S fuel' =>
      match h i with
      | None => None
      | Some n => if N.eqb (n_id n) id then Some (Some i) else find_from fuel' h (n_next n) id
      end
    end
  end.

(** go/proxy/lookup.go:67-74 find. *)
Definition find (l : lookup) (id : N) : option (option nat) := find_from (l_alloc l) (l_heap l) (l_head l) id.

(** go/proxy/lookup.go:18-24 Get. Outer [None]: does not return. *)
Definition Get (l : lookup) (id : N) : option (option S) :=
  match find l id with
  | None => None
  | Some None => Some None
  | Some (Some i) => match l_heap l i with Some n => Some (Some (n_stream n)) | None => None end
  end.

(** go/proxy/lookup.go:37-40: walk to the last node. *)
Fixpoint walk_last (fuel : nat) (h : nat -> option node) (i : nat) : option nat :=
  match fuel with
  | O => None
  | Datatypes.S fuel' =>
    match h i with
    | None => None
    | Some n => match n_next n with None => Some i | Some j => walk_last fuel' h j end
    end
  end.

(** go/proxy/lookup.go:26-45 Add. [None]: does not return. *)
Definition Add (l : lookup) (id : N) (s : S) : option lookup :=
  let a := l_alloc l in
  match l_head l with
  | None => Some (mkL (upd (l_heap l) a (mkNode None None id s)) (Datatypes.S a) (Some a) (Some a))
  | Some hd =>
    match walk_last a (l_heap l) hd with
    | None => None
    | Some cur =>
      Some (mkL (set_next (upd (l_heap l) a (mkNode (Some cur) None id s)) cur (Some a))
                (Datatypes.S a) (l_head l) (Some a))
    end
  end.

(** go/proxy/lookup.go:47-65 Remove: head and tail are never touched. *)
Definition Remove (l : lookup) (id : N) : option lookup :=
  match find l id with
  | None => None
  | Some None => Some l
  | Some (Some i) =>
    match l_heap l i with
    | None => None
    | Some n =>
      let h1 := match n_prev n with Some p => set_next (l_heap l) p (n_next n) | None => l_heap l end in
      let h2 := match n_next n with Some q => set_prev h1 q (n_prev n) | None => h1 end in
      Some (mkL h2 (l_alloc l) (l_head l) (l_tail l))
    end
  end.

(** A history of registrations and removals. *)
Inductive lop := OAdd (id : N) (s : S) | ORemove (id : N).

Fixpoint lrun (l : lookup) (ops : list lop) : option lookup :=
  match ops with
  | [] => Some l
  | OAdd id s :: ops' => match Add l id s with None => None | Some l' => lrun l' ops' end
  | ORemove id :: ops' => match Remove l id with None => None | Some l' => lrun l' ops' end
  end.

End Lookup.
Arguments node : clear implicits.
Arguments lookup : clear implicits.
Arguments lop : clear implicits.
