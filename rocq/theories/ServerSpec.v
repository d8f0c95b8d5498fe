(** What the user of a TCP server relies on. *)
From Coq Require Import List Bool Arith.
From Verif Require Import ServerModel.
Import ListNotations.

(** The server after a history of actions. *)
Definition ran (tr : list saction) (s : server) : Prop := sruns new_server tr = Some s.

(** User code calls Close only once the listener is there; or earlier. *)
Definition late (tr : list saction) : Prop := forall pre post, tr = pre ++ AClose :: post -> In (AFactory true) pre.
Definition early (tr : list saction) : Prop := exists pre post, tr = pre ++ AClose :: post /\ ~ In (AFactory true) pre.

(** A connection that has been taken on: it is served, or about to be. *)
Definition taken (s : server) (c : nat) (k : conn) : Prop := nth_error (sv_conns s) c = Some k /\ (k_started k = true \/ sv_listen s = LSpawn c).

(** Listen has got to accepting connections. *)
Definition accepting (pc : lpc) : Prop := match pc with LIdle | LFactory | LNotify _ => False | _ => True end.

(** The steps of Listen after its notification, and how many are left once the server is closed. *)
Definition of_listen (a : saction) : bool := match a with AConn | AEnd | AFail | AListenStep => true | _ => false end.
Definition steps_left (pc : lpc) : nat := match pc with LPut _ => 5 | LSpawn _ => 4 | LRefuse _ => 4 | LAccept => 3 | LDefer _ => 2 | _ => 0 end.

(** Why Listen may return as it does. *)
Definition justified (e : option lerr) (tr : list saction) : Prop :=
  match e with Some EListen => In (AFactory false) tr | Some EAccept => In AFail tr | None => In AEnd tr end.

(** The server has been told to stop: user code has called Close, or the goroutine that watches the context has, or Listen has returned after it had a
    listener. *)
Definition stopped (tr : list saction) (s : server) : Prop :=
  In AClose tr \/ In AWatchCtx tr \/ exists e, sv_listen s = LReturned e /\ e <> Some EListen.
