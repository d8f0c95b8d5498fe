(** Model of what is generated for a channel operation on both sides, after go/transport/wasmrs/example/uppercase.go:25-46: the client's method, which passes RequestChannel its input mapped with Encode and maps the flux it gets with Decode; and the wrapper registered
    as the handler, which passes the service its input mapped with Decode and maps the service's flux with Encode.  The call between them is [ChannelModel],
    items are those of [StubStreamModel].  Code only; no proofs.

    As in [StubStreamModel] mapping passes on everything but items, so the calls of the user on the sink of its input and on the flux of the client, and those
    of the service on its sink and on its input, are calls on the ends of [ChannelModel]; only items differ. *)
From Coq Require Import List NArith Bool.
From Verif Require Import Base MonoModel FluxModel FramesModel ProxyModel ResponderModel InvokeModel ChannelModel StubModel StubStreamModel.
Import ListNotations.
Open Scope N_scope.

(** uppercase.go:26-28: the payload is empty, the metadata are the number of the operation and four zero bytes. *)
Definition channel_call (op : N) : pay := ([], stub_metadata op).
(** uppercase.go:29-30, flux.go:232-256: the callbacks with which the client's Map subscribes the flux of the call, for a user with the callbacks [g], are
    [client_cfg g]; uppercase.go:42: those of the wrapper's Map on the input of the handler, for a service with the callbacks [gin], are [client_cfg gin]. *)
Definition stub_channel {H} wp wr (tp tr : ikind -> list (option H)) sp sr (g gin : fcfg) (sid op : N) : cconf H -> cmove -> option (cconf H) :=
  do_cmove wp wr tp tr sp sr (client_cfg g) (client_cfg gin) sid (fst (channel_call op)) (snd (channel_call op)).
