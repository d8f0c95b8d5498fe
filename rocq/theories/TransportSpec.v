(** What a user of a transport relies on, in terms of what can be seen. *)
From Coq Require Import List Bool.
From Verif Require Import TransportModel.
Import ListNotations.

Section Spec.
Context {F E : Type}.
Implicit Types (es : list (tevent F E)).

Definition frames_read es : list F := flat_map (fun e => match e with ORead f => [f] | _ => [] end) es.
Definition frames_handled es : list F := flat_map (fun e => match e with OHandled f _ => [f] | _ => [] end) es.
(** Reads of the connection that returned. *)
Definition reads_done es : nat := length (filter (fun e => match e with ORead _ | OEnd _ => true | _ => false end) es).
Definition failures es : list E := flat_map (fun e => match e with OHandled _ (Some x) => [x] | _ => [] end) es.

(** Why Start may return as it does. *)
Definition justified (r : result E) es : Prop :=
  match r with
  | RNil => In (OEnd None) es
  | RRead e => In (OEnd (Some e)) es
  | RCtx => In OCancel es
  | RDispatch e => hd_error (failures es) = Some e
  end.

Definition returned (t : transport F E) : Prop := exists r, t_start t = SReturned r.
(** Start is on its way out. *)
Definition leaving (t : transport F E) : Prop :=
  match t_start t with SReturn _ | SDisposing _ | SWait _ | SReturned _ => True | _ => False end.
Definition is_prefix {A} (a b : list A) : Prop := exists c, b = a ++ c.
End Spec.
