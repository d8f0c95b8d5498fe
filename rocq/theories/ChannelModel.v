(** Model of one channel call between two peers: handler/caller.go:65-73 (and alike host/caller.go:63-71, guest/caller.go:70-79), the requester's end
    with the subscription to its input (proxy/flux.go:76-127), the dispatchers of [DispatchModel], the responder's end of [ResponderModel] with the
    handler's input (handler.go:339-400 and alike) and the frames of [FramesModel].  Code only; no proofs.

    As in [StreamModel], of which the dispatchers' parts are taken; here frames with items go both ways.  The callbacks that streamFlux.Request
    subscribes to [in] (proxy/flux.go:86-108) are those that the responder subscribes to the handler's flux, so the machine for [in] is the [out] of
    [ResponderModel]; of its state only [r_out] is used.
    Simplifications: those of [StreamModel]; [in] is a flux made by flux.Create that nobody else subscribes. *)
From Coq Require Import List NArith ZArith Bool.
From Verif Require Import Base FramesModel InvokeModel MonoModel FluxModel ProxyModel DispatchModel ResponderModel StreamModel.
From Verif Require CallModel.
Import ListNotations.

(** Work items of the requester: of the flux it subscribed, and of [in]. *)
Inductive qitem := QP (it : pitem) | QI (it : ritem).
(** What happens at the requester: at the flux, at [in], DoRequest. *)
Inductive qevent := EP (e : pevent) | EI (e : revent) | EAsk (n : N).

Section Channel.
Context {H : Type}.
Context (wp wr : site).                        (* which of the three dispatchers the requester and the responder have *)
Context (tp tr : ikind -> list (option H)).    (* their handlers *)
Context (sp sr : bool).                        (* as in FluxModel: wasm or host *)
Context (g gin : fcfg).                        (* the callbacks of the caller, and of the handler on its input *)
Context (sid : N) (data md : bytes).           (* the stream id and the payload *)

(** caller.go:66-72. *)
Definition channel_request : request_frame := mkRequest FrameTypeRequestChannel sid md data false false 2147483647%N.

Record cconf := mkCC {
  x_p : pst; x_i : rst; x_pths : list (list qitem); x_ptr : list qevent;   (* the requester's end and its [in], its threads, what happened there *)
  x_ptodo : list (act H unit); x_preg : bool; x_ptasks : list N;           (* its dispatcher; whether the stream is registered; DoRequest goroutines *)
  x_up : list bytes; x_down : list bytes;                                  (* frames on their way to the responder and to the requester *)
  x_r : rst; x_rths : list (list ritem); x_rtr : list revent;              (* the same of the responder *)
  x_rtodo : list (act H unit); x_rreg : bool;
  x_tasks : list (task H); x_runs : list (H * bytes * bytes * N) }.

Definition channel_create (n m : nat) : cconf :=
  mkCC proxy_create responder_create (repeat [QP (PI FUser)] (S n)) [] [] false [] [] [] responder_create (repeat [RO FUser] (S m)) [] [] false [] [].

(** proxy/flux.go:83: the request has just been sent. *)
Definition opens (evs : list pevent) : bool := existsb (fun e => match e with PSent (FramesModel.FRequest _) => true | _ => false end) evs.
Definition no_cfg : fcfg := mkF false false false false false false.
Definition qstep (p : pst) (i : rst) (it : qitem) : option (pst * rst * list qitem * list (list qitem) * list qevent) :=
  match it with
  (* proxy/flux.go:85 is the last item *)
  | QP it =>
    match pstep sp g channel_request false p it with
    | Some (p', its, new, evs) => Some (p', i, map QP its ++ (if opens evs then [QI (RO (FDo FSubscribe))] else []), map (map QP) new, map EP evs)
    | None => None
    end
  | QI (RO it) =>
    match rstep sp no_cfg sid 0 i (RO it) with
    | Some (i', its, new, evs) => Some (p, i', map QI its, map (map QI) new, map EI evs)
    | None => None
    end
  | QI _ => None
  end.
Definition qsent (evs : list qevent) : list frame := flat_map (fun e => match e with EP (PSent f) | EI (RSent f) => [f] | _ => [] end) evs.
Definition qregisters (evs : list qevent) : bool := existsb (fun e => match e with EP PRegister => true | _ => false end) evs.

Definition is_quser (it : qitem) : bool := match it with QP (PI FUser) => true | QI (RO FUser) | QI (RO (FSrc _)) => true | _ => false end.
(** What user code of the caller can call: the flux, its subscription, and sink and subscription of [in]. *)
Definition qcall (it : qitem) : bool := match it with QP (PI (FDo c)) => pcalls c | QI (RO (FDo c)) => rcalls c | _ => false end.
(** What user code of the handler can call: sink and subscription of the flux it returned, and its input, once it has been given it. *)
Definition hcall (given : bool) (it : ritem) : bool :=
  match it with
  | RO (FDo c) => rcalls c
  | RI (FDo (FSubscribe | FNotify | FRequest _ | FluxModel.FCancel | FClose)) => given
  | _ => false
  end.

Inductive cmove :=
| XPCall (i : nat) (c : qitem) | XPReturn (i : nat) | XPStep (i : nat)                (* thread [i] of the requester *)
| XPRecv | XPAct                                                                     (* its dispatcher takes a frame; goes on *)
| XPTask (j i : nat)                                                                 (* DoRequest, on thread [i] *)
| XRCall (i : nat) (c : ritem) | XRReturn (i : nat) | XRStep (i : nat)
| XRRecv | XRAct
| XTask (j i : nat)                                                                  (* a goroutine of the responder goes on, on thread [i] *)
| XUp (bs : bytes) | XDown (bs : bytes).                                             (* frames of other streams *)

Definition put_p (c : cconf) (p : pst) (i : rst) ths evs todo reg tasks up : cconf :=
  mkCC p i ths (x_ptr c ++ evs) todo reg tasks up (x_down c) (x_r c) (x_rths c) (x_rtr c) (x_rtodo c) (x_rreg c) (x_tasks c) (x_runs c).
Definition put_r (c : cconf) (st : rst) ths evs todo reg down tasks runs : cconf :=
  mkCC (x_p c) (x_i c) (x_pths c) (x_ptr c) (x_ptodo c) (x_preg c) (x_ptasks c) (x_up c) down st ths (x_rtr c ++ evs) todo reg tasks runs.
Definition put_pths (c : cconf) ths todo reg tasks : cconf := put_p c (x_p c) (x_i c) ths [] todo reg tasks (x_up c).
Definition put_rths (c : cconf) ths todo tasks : cconf := put_r c (x_r c) ths [] todo (x_rreg c) (x_down c) tasks (x_runs c).

Definition cinitial (c : cconf) : N := match x_runs c with (_, _, _, n) :: _ => n | [] => 0%N end.
Definition given (c : cconf) : bool := match x_runs c with [] => false | _ => true end.

Definition do_cmove (c : cconf) (m : cmove) : option cconf :=
  match m with
  | XPCall i f =>
    match CallModel.cut i (x_pths c) with
    | Some (l, u :: stack, rest) => if is_quser u && qcall f then Some (put_pths c (l ++ (f :: u :: stack) :: rest) (x_ptodo c) (x_preg c) (x_ptasks c)) else None
    | _ => None
    end
  | XPReturn i =>
    match CallModel.cut i (x_pths c) with
    | Some (l, u :: it :: stack, rest) => if is_quser u then Some (put_pths c (l ++ (it :: stack) :: rest) (x_ptodo c) (x_preg c) (x_ptasks c)) else None
    | _ => None
    end
  | XPStep i =>
    match CallModel.cut i (x_pths c) with
    | Some (l, it :: stack, rest) =>
      match qstep (x_p c) (x_i c) it with
      | Some (p, i', its, new, evs) =>
        match posts (x_up c) (qsent evs) with
        | Some up => Some (put_p c p i' (l ++ (its ++ stack) :: rest ++ new) evs (x_ptodo c) (qregisters evs || x_preg c) (x_ptasks c) up)
        | None => None
        end
      | None => None
      end
    | _ => None
    end
  | XPRecv =>
    match x_pths c, x_ptodo c, x_down c with
    | [QP (PI FUser)] :: _, [], bs :: down =>
      let c' := mkCC (x_p c) (x_i c) (x_pths c) (x_ptr c) [] (x_preg c) (x_ptasks c) (x_up c) down (x_r c) (x_rths c) (x_rtr c) (x_rtodo c) (x_rreg c) (x_tasks c) (x_runs c) in
      match received sid wp tp (x_preg c) bs with
      | Ret l => Some (put_pths c' (x_pths c) (filter (own sid) l) (x_preg c) (x_ptasks c))
      | Fail _ => Some c'
      | Panic => None
      end
    | _, _, _ => None
    end
  (* proxy/flux.go:51-62, 124-127; handler.go:79-93, 155-157 *)
  | XPAct =>
    match x_pths c, x_ptodo c with
    | [QP (PI FUser)] :: rest, ACall _ (DoRequest n) :: todo => Some (put_pths c (x_pths c) todo (x_preg c) (x_ptasks c ++ [n]))
    | [QP (PI FUser)] :: rest, ACall _ f :: todo =>
      match net_call f with Some n => Some (put_pths c ([QP (PNetDo n); QP (PI FUser)] :: rest) todo (x_preg c) (x_ptasks c)) | None => None end
    | [QP (PI FUser)] :: rest, ARemove _ :: todo => Some (put_pths c (x_pths c) todo false (x_ptasks c))
    | _, _ => None
    end
  (* proxy/flux.go:124-127 *)
  | XPTask j i =>
    match CallModel.cut j (x_ptasks c), CallModel.cut i (x_pths c) with
    | Some (a, n, b), Some (l, u :: stack, rest) =>
      if is_quser u then Some (put_p c (x_p c) (x_i c) (l ++ (QI (RO (FDo (FRequest (Z.of_N n)))) :: u :: stack) :: rest) [EAsk n] (x_ptodo c) (x_preg c) (a ++ b) (x_up c)) else None
    | _, _ => None
    end
  | XRCall i f =>
    match CallModel.cut i (x_rths c) with
    | Some (l, u :: stack, rest) => if is_ruser u && hcall (given c) f then Some (put_rths c (l ++ (f :: u :: stack) :: rest) (x_rtodo c) (x_tasks c)) else None
    | _ => None
    end
  | XRReturn i =>
    match CallModel.cut i (x_rths c) with
    | Some (l, u :: it :: stack, rest) => if is_ruser u then Some (put_rths c (l ++ (it :: stack) :: rest) (x_rtodo c) (x_tasks c)) else None
    | _ => None
    end
  | XRStep i =>
    match CallModel.cut i (x_rths c) with
    | Some (l, it :: stack, rest) =>
      match rstep sr gin sid (cinitial c) (x_r c) it with
      | Some (st, its, new, evs) =>
        match posts (x_down c) (rsent evs) with
        | Some down => Some (put_r c st (l ++ (its ++ stack) :: rest ++ new) evs (x_rtodo c) (x_rreg c) down (x_tasks c) (x_runs c))
        | None => None
        end
      | None => None
      end
    | _ => None
    end
  | XRRecv =>
    match x_rths c, x_rtodo c, x_up c with
    | [RO FUser] :: _, [], bs :: up =>
      let c' := mkCC (x_p c) (x_i c) (x_pths c) (x_ptr c) (x_ptodo c) (x_preg c) (x_ptasks c) up (x_down c) (x_r c) (x_rths c) (x_rtr c) [] (x_rreg c) (x_tasks c) (x_runs c) in
      match received sid wr tr (x_rreg c) bs with
      | Ret l => Some (put_rths c' (x_rths c) (filter (own sid) l) (x_tasks c))
      | Fail _ => Some c'
      | Panic => None
      end
    | _, _, _ => None
    end
  (* handler.go:126-163; the goroutine registers the stream *)
  | XRAct =>
    match x_rths c, x_rtodo c with
    | [RO FUser] :: rest, ASend f :: todo => Some (put_rths c (x_rths c) todo (x_tasks c ++ [TSend f]))
    | [RO FUser] :: rest, ARegister _ :: todo => Some (put_rths c (x_rths c) todo (x_tasks c))
    | [RO FUser] :: rest, ARun RC h _ d m _ n :: todo => Some (put_rths c (x_rths c) todo (x_tasks c ++ [TRegister h d m n]))
    | [RO FUser] :: rest, ACall _ (DoRequest n) :: todo => Some (put_rths c (x_rths c) todo (x_tasks c ++ [TRequest n]))
    | [RO FUser] :: rest, ACall _ f :: todo => Some (put_rths c ([RNetDo (rnet_call f); RO FUser] :: rest) todo (x_tasks c))
    | [RO FUser] :: rest, ARemove _ :: todo => Some (put_r c (x_r c) (x_rths c) [] todo false (x_down c) (x_tasks c) (x_runs c))
    | _, _ => None
    end
  (* handler.go:339-400, 649-659, 701-703: the handler runs (user code) and returns its flux *)
  | XTask j i =>
    match CallModel.cut j (x_tasks c) with
    | Some (a, t, b) =>
      match t with
      | TSend f => match posts (x_down c) [f] with Some down => Some (put_r c (x_r c) (x_rths c) [] (x_rtodo c) (x_rreg c) down (a ++ b) (x_runs c)) | None => None end
      | TRegister h d m n => Some (put_r c (x_r c) (x_rths c) [] (x_rtodo c) true (x_down c) (a ++ TStart h d m n :: b) (x_runs c))
      | TStart h d m n =>
        match CallModel.cut i (x_rths c) with
        | Some (l, u :: stack, rest) =>
          if is_ruser u then Some (put_r c (x_r c) (l ++ (RI FUser :: RStart :: u :: stack) :: rest) [] (x_rtodo c) (x_rreg c) (x_down c) (a ++ b) (x_runs c ++ [(h, d, m, n)])) else None
        | _ => None
        end
      | TRequest n =>
        match CallModel.cut i (x_rths c) with
        | Some (l, u :: stack, rest) => if is_ruser u then Some (put_rths c (l ++ (RNetDo (RNRequest n) :: u :: stack) :: rest) (x_rtodo c) (a ++ b)) else None
        | _ => None
        end
      end
    | None => None
    end
  | XUp bs => Some (mkCC (x_p c) (x_i c) (x_pths c) (x_ptr c) (x_ptodo c) (x_preg c) (x_ptasks c) (x_up c ++ [bs]) (x_down c) (x_r c) (x_rths c) (x_rtr c) (x_rtodo c) (x_rreg c) (x_tasks c) (x_runs c))
  | XDown bs => Some (mkCC (x_p c) (x_i c) (x_pths c) (x_ptr c) (x_ptodo c) (x_preg c) (x_ptasks c) (x_up c) (x_down c ++ [bs]) (x_r c) (x_rths c) (x_rtr c) (x_rtodo c) (x_rreg c) (x_tasks c) (x_runs c))
  end.
End Channel.
Arguments cconf : clear implicits.
