(** What a streaming call through the mesh owes its subscriber. *)
From Coq Require Import List NArith ZArith Bool.
From Verif Require Import Base FramesModel OperationsModel InvokeModel MonoModel FluxModel ProxyModel DispatchModel DispatchSpec ResponderModel MeshModel.
From Verif Require StreamIdModel RelayModel.
From Verif Require Import StreamModel StreamSpec RelayStreamModel.
Import ListNotations.

Section Spec.
Context {G : Type}.
Context (m : mesh) (exported : nat -> ikind -> list (option G)) (shost sguest : bool) (a : nat) (d : destination) (g : fcfg) (sid1 sid2 : N) (data md md2 : bytes).

(** The premises of [StreamSpec] on both streams: the exporting guest's items can be sent and its sink calls do not overlap; other traffic belongs to
    other streams. *)
Definition xallowed (x : duo G) (mv : xmove) : Prop :=
  match mv with
  | XFirst mv => allowed sid1 (x_first x) mv
  | XSecond mv => allowed sid2 (x_second x) mv
  | _ => True
  end.
Inductive xreach : duo G -> Prop :=
| x_init : forall n k j, xreach (duo_create n k j)
| x_move : forall x mv x', xreach x -> xallowed x mv -> do_x m exported shost sguest a d g sid1 sid2 data md md2 x mv = Some x' -> xreach x'.

(** The caller's metadata names destination [d] in its instance's table, and [d] names a handler [h] of the other guest. *)
Definition routed (h : G) : Prop :=
  (8 <= len md)%N /\ nth_error (m_tabs m a RS) (N.to_nat (number4 md)) = Some (Some d) /\ nth_error (exported (d_inst d) RS) (N.to_nat (d_index d)) = Some (Some h).
(** Nothing is under way on either stream. *)
Definition x_rest (x : duo G) : Prop := at_rest (x_first x) /\ at_rest (x_second x).
End Spec.
