(** What crossing between host and guest should mean. *)
From Coq Require Import List NArith Bool.
From Verif Require Import Base FramesModel FramesSpec BatchModel.
Import ListNotations.
Open Scope N_scope.

(** A frame behind its length. *)
Definition framed (f : frame) : bytes := bytes3 (len (wire f)) ++ wire f.
Definition batch (fs : list frame) : bytes := concat (map framed fs).
(** Frames that can be sent: fields in range, below the limit of the 24-bit lengths. *)
Definition sendable (f : frame) : Prop := frame_in_range f /\ len (wire f) < 2^24.

Fixpoint arrived (es : list event) : list frame :=
  match es with [] => [] | Arrive f :: es' => f :: arrived es' | _ :: es' => arrived es' end.
(** The loop last saw an empty channel, or nothing yet. *)
Definition waits (es : list event) : Prop := forall es' f, es <> es' ++ [Arrive f].
(** The channel has not been closed. *)
Definition no_close (es : list event) : Prop := ~ In Closed es.
(** Each frame with everything that follows it in its batch. *)
Fixpoint suffixes (fs : list frame) : list bytes := match fs with [] => [] | f :: fs' => (wire f ++ batch fs') :: suffixes fs' end.
