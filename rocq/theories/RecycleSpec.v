(** What receivers of a host's frames rely on. *)
From Coq Require Import List Bool Arith.
From Verif Require Import Base RecycleModel.
Open Scope nat_scope.
Import ListNotations.

Definition recycled (l : list raction) (s : rstate) : Prop := rruns r_new l = Some s.

(** Nobody writes to a slice. *)
Definition no_pokes (l : list raction) : Prop := forall v off d, ~ In (RPoke v off d) l.

(** The frame a slice is of is being handled. *)
Definition current (s : rstate) (w : view) : Prop := r_cur s <> None /\ S (v_frame w) = length (r_handled s).
(** Slices are written to only while the frame they are of is being handled. *)
Definition timely (l : list raction) : Prop :=
  forall pre v off d post s w, l = pre ++ RPoke v off d :: post -> recycled pre s -> nth_error (r_views s) v = Some w -> current s w.
