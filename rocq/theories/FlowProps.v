(** C31: flows. *)
From Coq Require Import List Arith Bool Lia.
From Verif Require Import FlowModel FlowSpec FlowProofs.
Import ListNotations.

(** As long as no group is complete before flow.go has finished with it, the steps run in order, each at most once. *)
Theorem C31_order : forall N s stack tr, wreach N s stack tr -> unhurried tr -> exists n, n <= N /\ runs tr = seq 0 n.
Proof. exact order_proof. Qed.
Print Assumptions C31_order.

Theorem C31_waited : forall N s stack tr, wreach N s stack tr -> unhurried tr -> waited tr.
Proof. exact waited_proof. Qed.
Print Assumptions C31_waited.

Theorem C31_stops : forall N s stack tr, wreach N s stack tr -> unhurried tr -> stops tr.
Proof. exact stops_proof. Qed.
Print Assumptions C31_stops.

(** With nothing left to do, and everything awaited done, all of them have run. *)
Theorem C31_progress : forall N s tr, wreach N s [WUser] tr -> unhurried tr -> fulfilled tr -> runs tr = seq 0 N.
Proof. exact progress_proof. Qed.
Print Assumptions C31_progress.

Theorem C31_no_panic : forall N s stack tr r, wreach N s (WLoop r 0 :: stack) tr -> unhurried tr -> w_pos s < N.
Proof. exact no_panic_proof. Qed.
Print Assumptions C31_no_panic.

(** A step that returns an empty group is the last to run. *)
Theorem C31_empty_group : forall N s stack a r b, wreach N s stack (a ++ WOpen r 0 :: b) -> unhurried (a ++ WOpen r 0 :: b) -> runs b = [].
Proof. exact empty_proof. Qed.
Print Assumptions C31_empty_group.

Example C31_good : exists s tr, wreach 2 s [WUser] tr /\ unhurried tr /\ tr = [WRun 0; WOpen 0 2; WDone 0; WClosed 0; WDone 0; WRun 1; WErr 1].
Proof. exact good_proof. Qed.
Example C31_whole : exists s tr, wreach 2 s [WUser] tr /\ unhurried tr /\ fulfilled tr /\
  tr = [WRun 0; WOpen 0 1; WClosed 0; WDone 0; WRun 1; WOpen 1 1; WClosed 1; WDone 1].
Proof. exact whole_proof. Qed.

(** Without that condition the order is lost: a step whose group is complete when it returns is run again, any number of
    times; then a step is skipped; and a flow of one step panics. *)
Theorem C31_rerun_refuted : forall N n, N > 0 -> exists s stack tr, wreach N s stack tr /\ runs tr = repeat 0 (S n).
Proof. exact rerun_proof. Qed.
Print Assumptions C31_rerun_refuted.

Theorem C31_skip_refuted : exists s stack tr, wreach 3 s stack tr /\ runs tr = [0; 0; 2].
Proof. exact skip_proof. Qed.
Print Assumptions C31_skip_refuted.

Theorem C31_panic_refuted : exists s stack tr,
  wreach 1 s (WLoop 0 0 :: stack) tr /\ runs tr = [0; 0] /\ forall s' its evs, ~ wstep 1 s (WLoop 0 0) s' its evs.
Proof. exact panic_proof. Qed.
Print Assumptions C31_panic_refuted.

(** End does not stop the step that follows the one awaited. *)
Theorem C31_late_end_refuted : exists s stack tr, wreach 2 s stack tr /\ tr = [WRun 0; WOpen 0 1; WClosed 0; WEnd; WDone 0; WRun 1].
Proof. exact late_end_proof. Qed.
Print Assumptions C31_late_end_refuted.
