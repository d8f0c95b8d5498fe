(** What a responder asks of the flux its handler returned. *)
From Coq Require Import List NArith ZArith Bool.
From Verif Require Import Base MonoModel FluxModel FluxSpec ProxyModel ResponderModel ResponderSpec.
Import ListNotations.

(** The calls of Request on the handler's flux, and the numbers in the RequestN frames handed to the stream. *)
Definition requests (tr : list revent) : list Z := flat_map (fun c => match c with FRequest n => [n] | _ => [] end) (out_calls tr).
Definition wished (tr : list revent) : list Z := flat_map (fun e => match e with RNet (RNRequest n) => [Z.of_N n] | _ => [] end) tr.
(** The handler's flux has been subscribed. *)
Definition begun (tr : list revent) : bool := existsb (fun c => match c with FSubscribe => true | _ => false end) (out_calls tr).

(** User code leaves it to the responder to subscribe to the flux it returned and to request from it. *)
Definition hands_off (it : ritem) : bool := match it with RO (FDo (FSubscribe | FRequest _)) => false | _ => true end.
(** The responder has something left to do: the subscription, what follows it, or a request. *)
Definition unasked (it : ritem) : bool := match it with RO (FDo (FSubscribe | FRequest _)) | RAfter => true | _ => false end.

Section Reach.
Context (sync : bool) (gin : fcfg) (sid initial : N).
(** The executions of [rreach] with such user code. *)
Inductive ask_reach : rst -> list (list ritem) -> list revent -> Prop :=
| a_init : forall n, ask_reach responder_create (repeat [RO FUser] n) []
| a_call : forall st l u stack rest tr c, ask_reach st (l ++ (u :: stack) :: rest) tr -> is_ruser u = true -> rcall c = true -> hands_off c = true ->
    ask_reach st (l ++ (c :: u :: stack) :: rest) tr
| a_return : forall st l u stack rest tr, ask_reach st (l ++ (u :: stack) :: rest) tr -> is_ruser u = true -> stack <> [] -> ask_reach st (l ++ stack :: rest) tr
| a_step : forall st l it stack rest tr st' its new evs, ask_reach st (l ++ (it :: stack) :: rest) tr ->
    rstep sync gin sid initial st it = Some (st', its, new, evs) -> ask_reach st' (l ++ (its ++ stack) :: rest ++ new) (tr ++ evs).
End Reach.
