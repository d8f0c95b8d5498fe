(** What users of a host instance rely on. *)
From Coq Require Import List Bool Arith.
From Verif Require Import PipeModel.
Import ListNotations.

Section Spec.
Context {F : Type}.
Variable fits : list F -> F -> bool.

(** The instance after a history. *)
Definition piped (tr : list (paction F)) (s : pipe F) : Prop := pruns fits new_pipe tr = Some s.

(** Steps that are nobody's choice; the guest and the handling of frames do return. *)
Definition own (a : paction F) : bool := match a with EGuest _ | EHandler _ | EUser _ | EClose => false | _ => true end.
(** Nothing can go on by itself. *)
Definition stuck (s : pipe F) : Prop := forall a, own a = true -> pstep fits s a = None.

(** Everything is done. *)
Definition idle (s : pipe F) : Prop :=
  p_sloop s = SOuter /\ p_rloop s = RIdle /\ p_pending s = [] /\ p_given s = p_sent s /\ p_handled s = p_received s.
(** The guest waits for room in the one channel, the handling of a frame for room in the other. *)
Definition deadlocked (s : pipe F) : Prop :=
  (exists f fs k, p_sloop s = SHost (f :: fs) k) /\ (exists f g, p_rloop s = RSend f g) /\ length (p_send s) = cap /\ length (p_recv s) = cap.

(** The work at hand. *)
Definition work_s (pc : spc F) : nat :=
  match pc with
  | SOuter => 1 | SCall None => 2 | SInner => 3 | SCall (Some _) => 4 | SWrite _ => 5
  | SHost fs None => 3 + 3 * length fs | SHost fs (Some _) => 5 + 3 * length fs | SEnded => 0 end.
Definition work_r (pc : rpc F) : nat := match pc with RIdle => 1 | RHandle _ => 2 | RSend _ _ => 9 | REnded => 0 end.
Definition work (s : pipe F) : nat :=
  7 * length (p_pending s) + 6 * length (p_send s) + 2 * length (p_recv s) + work_s (p_sloop s) + work_r (p_rloop s).

(** sendLoop has frames on its hands. *)
Definition busy (s : pipe F) : Prop :=
  p_send s <> [] \/ (exists f, p_sloop s = SWrite f) \/ p_sloop s = SInner \/ (exists f, p_sloop s = SCall (Some f)) \/ (exists fs f, p_sloop s = SHost fs (Some f)).
(** Nothing on the way to the guest, to a channel, or out of it. *)
Definition quiet (s : pipe F) : Prop :=
  ~ busy s /\ p_pending s = [] /\ (forall f g, p_rloop s <> RSend f g) /\ (forall f fs k, p_sloop s <> SHost (f :: fs) k).
End Spec.
