(** What the subscriber of a flow is owed, in terms of what the steps report. *)
From Coq Require Import List Arith Bool.
From Verif Require Import FlowModel FlowSinkModel.
Import ListNotations.

Section Spec.
Context {T E : Type}.
Implicit Types (tr : list (xevent (T := T) (E := E))).

(** What is reported: the calls that do not panic, and the errors the steps return. *)
Definition reports tr : list (xcall (T := T) (E := E)) :=
  flat_map (fun e => match e with XCalled c => [c] | XReturned _ e => [XError e] | _ => [] end) tr.

(** Only the first report that ends the subscription, and the items before it, count. *)
Fixpoint owed (l : list (xcall (T := T) (E := E))) : list (xseen (T := T) (E := E)) :=
  match l with
  | [] => []
  | XNext v :: l' => ONext v :: owed l'
  | XSuccess v :: _ => [OSuccess v]
  | XComplete :: _ => [OComplete]
  | XError e :: _ => [OError e]
  | XCancel :: _ => []
  end.

(** What the subscriber saw, but for the calls of Finally. *)
Definition is_result (o : xseen (T := T) (E := E)) : bool := match o with OFinally => false | _ => true end.
Definition saw tr : list (xseen (T := T) (E := E)) := flat_map (fun e => match e with XSee o => if is_result o then [o] else [] | _ => [] end) tr.

(** The methods for the other kind of sink. *)
Definition misused (mono : bool) (c : xcall (T := T) (E := E)) : bool :=
  match c with XSuccess _ => negb mono | XNext _ | XComplete => mono | _ => false end.

(** The flow's own part of a trace. *)
Definition flow_part tr : list wevent := flat_map (fun e => match e with XF w => [w] | XReturned r _ => [WErr r] | _ => [] end) tr.
End Spec.
