(** Model of go/proxy/flux.go (streamFlux) with its processor (go/rx/flux/processor.go): the requester's end of a stream or channel.
    Code only; no proofs.

    The subscriber machine of [FluxModel] with the source filled in by the processor and streamFlux.Request/Cancel; the subscriber's side -
    callbacks and whoever holds the subscription - and the frames that arrive for the stream are arbitrary.  The subscription to [in] of a channel is
    arbitrary user code.  Simplification: the body of Request up to the sending of its frame is one step (on hosts a lock keeps such bodies apart,
    flux_host.go:20-26). *)
From Coq Require Import List NArith ZArith Bool.
From Verif Require Import Base FramesModel MonoModel FluxModel.
Import ListNotations.

(** The conversion [uint32(n)] of an int. *)
Definition u32z (n : Z) : N := Z.to_N (n mod 4294967296).

(** go/payload: data and metadata. *)
Definition pay : Type := (bytes * bytes)%type.

Section Proxy.
Context (sync : bool).          (* as in FluxModel: wasm or host *)
Context (g : fcfg).             (* the subscriber's callbacks *)
Context (r : request_frame).    (* streamFlux.request, made by caller.go:55-73 *)
Context (has_in : bool).        (* [in] is not nil: a channel *)

(** proxy/flux.go:30-41; the processor's sink is set when the subscriber exists. *)
Record pst := mkP { p_fl : flst; p_first : bool; p_complete : bool }.
Definition proxy_create : pst := mkP flux_create true false.

(** The stream methods called by the dispatcher, proxy/flux.go:51-62. *)
Inductive net := NNext (v : pay) | NComplete | NError (e : bytes).

Inductive pevent :=
| PV (e : fevent pay bytes)     (* of the subscriber *)
| PNet (c : net)                (* a stream method is called *)
| PSent (f : frame)             (* sendFrame *)
| PRegister                     (* register(s) *)
| PCompleted.                   (* s.complete = true *)

Inductive pitem :=
| PI (it : fitem pay bytes)
| PNetDo (c : net)
| PSetComplete.

Definition with_n (n : Z) : frame :=
  FramesModel.FRequest (mkRequest (rf_type r) (rf_stream_id r) (rf_metadata r) (rf_data r) (rf_follows r) (rf_complete r) (u32z n)).

Definition pstep (st : pst) (it : pitem) : option (pst * list pitem * list (list pitem) * list pevent) :=
  match it with
  (* proxy/flux.go:129-134; processor.go:16-22 *)
  | PI (FDo FSubscribe) =>
    match fstep (T:=pay) (E:=bytes) sync g (p_fl st) (FDo FSubscribe) with
    | Some (fl, _, _, evs) => Some (mkP fl (p_first st) (p_complete st), [PI (FDo (FOnSubscribe true true)); PI FHandle], [], PRegister :: map PV evs)
    | None => None
    end
  (* proxy/flux.go:76-116 *)
  | PI (FEmit true (VReqSrc n)) =>
    if p_complete st then Some (st, [], [], [PV (VReqSrc n)])
    else if p_first st then Some (mkP (p_fl st) false false, (if has_in then [PI FUser] else []), [], [PV (VReqSrc n); PSent (with_n n)])
    else Some (st, [], [], [PV (VReqSrc n); PSent (FRequestN (rf_stream_id r) (u32z n))])
  (* proxy/flux.go:118-122 *)
  | PI (FEmit true VCancelSrc) => Some (st, [], [], [PV VCancelSrc; PSent (FramesModel.FCancel (rf_stream_id r))])
  | PI it =>
    match fstep sync g (p_fl st) it with
    | Some (fl, its, new, evs) => Some (mkP fl (p_first st) (p_complete st), map PI its, map (map PI) new, map PV evs)
    | None => None
    end
  (* proxy/flux.go:51-62; processor.go:27-43 *)
  | PNetDo (NNext v) => Some (st, if f_sub (p_fl st) then [PI (FDo (FNext v))] else [], [], [PNet (NNext v)])
  | PNetDo NComplete => Some (st, (if f_sub (p_fl st) then [PI (FDo FComplete)] else []) ++ [PSetComplete], [], [PNet NComplete])
  | PNetDo (NError e) => Some (st, if f_sub (p_fl st) then [PI (FDo (FluxModel.FError e))] else [], [], [PNet (NError e)])
  | PSetComplete => Some (mkP (p_fl st) (p_first st) true, [], [], [PCompleted])
  end.

(** What user code and the dispatcher can call. *)
Definition side_call (it : pitem) : bool :=
  match it with
  | PI (FDo (FSubscribe | FNotify | FRequest _ | FluxModel.FCancel | FClose)) => true
  | PNetDo _ => true
  | _ => false
  end.

Inductive preach : pst -> list (list pitem) -> list pevent -> Prop :=
| p_init : forall n, preach proxy_create (repeat [PI FUser] n) []
| p_call : forall st l stack rest tr c, preach st (l ++ (PI FUser :: stack) :: rest) tr -> side_call c = true ->
    preach st (l ++ (c :: PI FUser :: stack) :: rest) tr
| p_return : forall st l stack rest tr, preach st (l ++ (PI FUser :: stack) :: rest) tr -> stack <> [] -> preach st (l ++ stack :: rest) tr
| p_step : forall st l it stack rest tr st' its new evs, preach st (l ++ (it :: stack) :: rest) tr ->
    pstep st it = Some (st', its, new, evs) -> preach st' (l ++ (its ++ stack) :: rest ++ new) (tr ++ evs).
End Proxy.
