(** Model of the responder's end of a stream or channel: handler.go:291-400, instance.go:491-611 and guest.go:356-465 (handleRequestStream,
    handleRequestChannel), with requestStream's methods (handler.go:697-715 and alike).  Code only; no proofs.

    Two subscriber machines of [FluxModel]: [out], the flux the handler returned, with the callbacks that send frames, and [in], the flux made of
    the frames that arrive on a channel, with whatever callbacks the handler subscribes.  The handler, its sources and its callbacks are arbitrary
    user code, the frames that arrive are arbitrary.  The handler's flux is one made by flux.Create. *)
From Coq Require Import List NArith ZArith Bool.
From Verif Require Import Base FramesModel MonoModel FluxModel ProxyModel.
Import ListNotations.

(** OnNext, OnComplete, OnError and NoRequest. *)
Definition resp_cfg : fcfg := mkF true true true false false true.

Section Responder.
Context (sync : bool).          (* as in FluxModel: wasm or host *)
Context (gin : fcfg).           (* the callbacks the handler subscribes to the incoming flux *)
Context (sid : N).
Context (initial : N).          (* initialN *)

(** out, in, s.sub is set; s.sink is set when [in] is subscribed. *)
Record rst := mkR { r_out : flst; r_in : flst; r_sub : bool }.
Definition responder_create : rst := mkR flux_create flux_create false.

(** The stream methods called by the dispatcher. *)
Inductive rnet := RNRequest (n : N) | RNNext (v : pay) | RNComplete | RNError (e : bytes).

Inductive revent :=
| ROV (e : fevent pay bytes)    (* of out *)
| RIV (e : fevent pay bytes)    (* of in *)
| RNet (c : rnet)
| RSent (f : frame).            (* sendFrame *)

Inductive ritem :=
| RO (it : fitem pay bytes)
| RI (it : fitem pay bytes)
| RStart                        (* the handler has returned the flux *)
| RAfter                        (* it has been subscribed *)
| RNetDo (c : rnet).

(** The frames of the callbacks. *)
Definition frame_of (e : fevent pay bytes) : option frame :=
  match e with
  | VNext v => Some (FPayload (mkPayload sid (snd v) (fst v) false false true))
  | VComplete => Some (FPayload (mkPayload sid [] [] false true false))
  | VError m => Some (FramesModel.FError sid 0 m)
  | _ => None
  end.

Definition rstep (st : rst) (it : ritem) : option (rst * list ritem * list (list ritem) * list revent) :=
  match it with
  (* handler.go:311, 374 *)
  | RStart => Some (st, [RO (FDo FSubscribe); RAfter], [], [])
  (* handler.go:334-336, 397-399 *)
  | RAfter => Some (mkR (r_out st) (r_in st) true, [RO (FDo (FRequest (Z.of_N initial)))], [], [])
  | RO (FEmit true e) =>
    match frame_of e with
    (* handler.go:312-332, 375-395 *)
    | Some f => Some (st, [], [], [ROV e; RSent f])
    | None => match fstep sync resp_cfg (r_out st) (FEmit true e) with
              | Some (fl, its, new, evs) => Some (mkR fl (r_in st) (r_sub st), map RO its, map (map RO) new, map ROV evs)
              | None => None
              end
    end
  | RO it =>
    match fstep sync resp_cfg (r_out st) it with
    | Some (fl, its, new, evs) => Some (mkR fl (r_in st) (r_sub st), map RO its, map (map RO) new, map ROV evs)
    | None => None
    end
  (* handler.go:357-372 *)
  | RI (FDo FSubscribe) =>
    match fstep (T:=pay) (E:=bytes) sync gin (r_in st) (FDo FSubscribe) with
    | Some (fl, _, _, evs) => Some (mkR (r_out st) fl (r_sub st), [RI (FDo (FOnSubscribe true true)); RI FHandle], [], map RIV evs)
    | None => None
    end
  | RI (FEmit true (VReqSrc n)) => Some (st, [], [], [RIV (VReqSrc n); RSent (FRequestN sid (u32z n))])
  | RI (FEmit true VCancelSrc) => Some (st, [], [], [RIV VCancelSrc; RSent (FramesModel.FCancel sid)])
  | RI it =>
    match fstep sync gin (r_in st) it with
    | Some (fl, its, new, evs) => Some (mkR (r_out st) fl (r_sub st), map RI its, map (map RI) new, map RIV evs)
    | None => None
    end
  (* handler.go:701-715 *)
  | RNetDo (RNRequest n) => if r_sub st then Some (st, [RO (FDo (FRequest (Z.of_N n)))], [], [RNet (RNRequest n)]) else None
  | RNetDo (RNNext v) => if f_sub (r_in st) then Some (st, [RI (FDo (FNext v))], [], [RNet (RNNext v)]) else None
  | RNetDo RNComplete => if f_sub (r_in st) then Some (st, [RI (FDo FComplete)], [], [RNet RNComplete]) else None
  | RNetDo (RNError e) => if f_sub (r_in st) then Some (st, [RI (FDo (FluxModel.FError e))], [], [RNet (RNError e)]) else None
  end.

Definition is_ruser (it : ritem) : bool := match it with RO FUser | RO (FSrc _) | RI FUser => true | _ => false end.
(** What user code and the dispatcher can call: the sink and the subscription of [out], the subscription of [in]. *)
Definition rcall (it : ritem) : bool :=
  match it with
  | RStart | RNetDo _ | RO (FDo _) => true
  | RI (FDo (FSubscribe | FNotify | FRequest _ | FluxModel.FCancel | FClose)) => true
  | _ => false
  end.

(** The source's sink calls, and such calls that have passed the test of [closed] and have not yet sent their frame. *)
Definition begins (it : ritem) : bool := match it with RO (FDo (FNext _ | FComplete | FluxModel.FError _)) => true | _ => false end.
Definition holds (it : ritem) : bool :=
  match it with RO (FCommit (FNext _ | FComplete | FluxModel.FError _)) => true | RO (FEmit _ (VNext _ | VComplete | VError _)) => true | _ => false end.
Definition idle (ths : list (list ritem)) : bool := forallb (forallb (fun it => negb (holds it))) ths.

(** All executions; with [serial] only those in which no two sink calls overlap. *)
Inductive rreach (serial : bool) : rst -> list (list ritem) -> list revent -> Prop :=
| r_init : forall n, rreach serial responder_create (repeat [RO FUser] n) []
| r_call : forall st l u stack rest tr c, rreach serial st (l ++ (u :: stack) :: rest) tr -> is_ruser u = true -> rcall c = true ->
    rreach serial st (l ++ (c :: u :: stack) :: rest) tr
| r_return : forall st l u stack rest tr, rreach serial st (l ++ (u :: stack) :: rest) tr -> is_ruser u = true -> stack <> [] -> rreach serial st (l ++ stack :: rest) tr
| r_step : forall st l it stack rest tr st' its new evs, rreach serial st (l ++ (it :: stack) :: rest) tr ->
    rstep st it = Some (st', its, new, evs) -> (serial = true -> begins it = true -> idle (l ++ (it :: stack) :: rest) = true) ->
    rreach serial st' (l ++ (its ++ stack) :: rest ++ new) (tr ++ evs).
End Responder.
