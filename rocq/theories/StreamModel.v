(** Model of one streaming call between two peers, from Subscribe of what RequestStream returned to the subscriber's callbacks:
    handler/caller.go:55-63 (and alike host/caller.go, guest/caller.go), the requester's end of [ProxyModel], the dispatchers of [DispatchModel], the
    responder's end of [ResponderModel] and the frames of [FramesModel].  Code only; no proofs.

    Between the peers are two queues of encoded frames (what carries them is the subject of Batch and Tcp), which carry frames of other streams too.
    Everything that can happen is a move; the moves of the two peers - of the subscriber, of the handler and its source, of the dispatchers and of
    the goroutines they start - come in any order.  Each dispatcher takes one frame after the other and does what it asks in turn, on the first
    thread of its peer.
    Simplifications: one stream is followed, and the registries (LookupModel) are reduced to whether they hold it; a guest's dispatcher, which waits for
    what the others put in a goroutine, is allowed to go on as well; where a method would be called on a nil pointer the machines of the two ends
    stop, not the dispatchers. *)
From Coq Require Import List NArith ZArith Bool.
From Verif Require Import Base FramesModel InvokeModel MonoModel FluxModel ProxyModel DispatchModel ResponderModel.
From Verif Require CallModel.
Import ListNotations.

Section Stream.
Context {H : Type}.
Context (wp wr : site).                        (* which of the three dispatchers the requester and the responder have *)
Context (tp tr : ikind -> list (option H)).    (* their handlers *)
Context (sp sr : bool).                        (* as in FluxModel: wasm or host *)
Context (g : fcfg).                            (* the subscriber's callbacks *)
Context (sid : N) (data md : bytes).           (* the stream id and the payload *)

(** caller.go:56-62. *)
Definition stream_request : request_frame := mkRequest FrameTypeRequestStream sid md data false false 2147483647%N.

(** Goroutines of the responder: an error is sent; handleRequestStream before it registers, and before it has got the handler's flux; DoRequest. *)
Inductive task := TSend (f : frame) | TRegister (h : H) (data md : bytes) (n : N) | TStart (h : H) (data md : bytes) (n : N) | TRequest (n : N).

Record conf := mkC {
  c_p : pst; c_pths : list (list pitem); c_ptr : list pevent;             (* the requester's end, its threads, what happened there *)
  c_ptodo : list (act H unit); c_preg : bool;                             (* what its dispatcher has still to do; whether the stream is registered *)
  c_up : list bytes; c_down : list bytes;                                 (* frames on their way to the responder and to the requester *)
  c_r : rst; c_rths : list (list ritem); c_rtr : list revent;             (* the same of the responder *)
  c_rtodo : list (act H unit); c_rreg : bool;
  c_tasks : list task; c_runs : list (H * bytes * bytes * N) }.           (* goroutines; handlers run, with payload and initialN *)

Definition stream_create (n m : nat) : conf :=
  mkC proxy_create (repeat [PI FUser] (S n)) [] [] false [] [] responder_create (repeat [RO FUser] (S m)) [] [] false [] [].

(** A dispatcher with a frame. *)
Definition look (reg : bool) (id : N) : option unit := if reg && (id =? sid)%N then Some tt else None.
Definition any_kind (_ : unit) : skind := SResp true true.
Definition received (w : site) (tbl : ikind -> list (option H)) (reg : bool) (bs : bytes) : outcome derr (list (act H unit)) :=
  match w with
  | Peer => match frame_parse bs with Ret (Some f) => HandleFrame tbl (look reg) any_kind f | Ret None => Ret [] | _ => Panic end
  | _ => recv_one tbl (look reg) any_kind w bs
  end.
(** What concerns this stream. *)
Definition own (a : act H unit) : bool :=
  match a with
  | ASend f => (frame_sid f =? sid)%N
  | AKeep r => (rf_stream_id r =? sid)%N
  | ARegister i | ARemove i | ARun _ _ i _ _ _ _ => (i =? sid)%N
  | ACall _ _ => true
  end.

Fixpoint posts (w : list bytes) (fs : list frame) : option (list bytes) :=
  match fs with
  | [] => Some w
  | f :: fs' => match frame_bytes f with Ret bs => posts (w ++ [bs]) fs' | _ => None end
  end.
Definition psent (evs : list pevent) : list frame := flat_map (fun e => match e with PSent f => [f] | _ => [] end) evs.
Definition rsent (evs : list revent) : list frame := flat_map (fun e => match e with RSent f => [f] | _ => [] end) evs.
Definition registers_now (evs : list pevent) : bool := existsb (fun e => match e with PRegister => true | _ => false end) evs.

(** What the subscriber and whoever holds the subscription can call. *)
Definition pcalls (c : fcall pay bytes) : bool := match c with FSubscribe | FNotify | FRequest _ | FluxModel.FCancel | FClose => true | _ => false end.
(** What the handler's source and whoever holds the subscription of its flux can call; it is subscribed by handleRequestStream. *)
Definition rcalls (c : fcall pay bytes) : bool := match c with FSubscribe => false | _ => true end.

Inductive move :=
| MPCall (i : nat) (c : fcall pay bytes) | MPReturn (i : nat) | MPStep (i : nat)      (* thread [i] of the requester *)
| MPRecv | MPAct                                                                     (* its dispatcher takes a frame; goes on *)
| MRCall (i : nat) (c : fcall pay bytes) | MRReturn (i : nat) | MRStep (i : nat)
| MRRecv | MRAct
| MTask (j i : nat)                                                                  (* a goroutine goes on, on thread [i] *)
| MUp (bs : bytes) | MDown (bs : bytes).                                             (* frames of other streams *)

Definition set_p (c : conf) (st : pst) ths evs todo reg up : conf :=
  mkC st ths (c_ptr c ++ evs) todo reg up (c_down c) (c_r c) (c_rths c) (c_rtr c) (c_rtodo c) (c_rreg c) (c_tasks c) (c_runs c).
Definition set_r (c : conf) (st : rst) ths evs todo reg down tasks runs : conf :=
  mkC (c_p c) (c_pths c) (c_ptr c) (c_ptodo c) (c_preg c) (c_up c) down st ths (c_rtr c ++ evs) todo reg tasks runs.
Definition set_pths (c : conf) ths todo reg : conf := set_p c (c_p c) ths [] todo reg (c_up c).
Definition set_rths (c : conf) ths todo tasks : conf := set_r c (c_r c) ths [] todo (c_rreg c) (c_down c) tasks (c_runs c).

(** initialN of the request that was received. *)
Definition initial (c : conf) : N := match c_runs c with (_, _, _, n) :: _ => n | [] => 0%N end.

(** Methods of the requester's stream; [None]: DoRequest, [in] being nil. *)
Definition net_call (c : scall) : option net :=
  match c with OnNext d m => Some (NNext (d, m)) | OnComplete => Some NComplete | OnError e => Some (NError e) | DoRequest _ => None end.
Definition rnet_call (c : scall) : rnet :=
  match c with OnNext d m => RNNext (d, m) | OnComplete => RNComplete | OnError e => RNError e | DoRequest n => RNRequest n end.

Definition do_move (c : conf) (m : move) : option conf :=
  match m with
  | MPCall i f =>
    match CallModel.cut i (c_pths c) with
    | Some (l, PI FUser :: stack, rest) => if pcalls f then Some (set_pths c (l ++ (PI (FDo f) :: PI FUser :: stack) :: rest) (c_ptodo c) (c_preg c)) else None
    | _ => None
    end
  | MPReturn i =>
    match CallModel.cut i (c_pths c) with
    | Some (l, PI FUser :: it :: stack, rest) => Some (set_pths c (l ++ (it :: stack) :: rest) (c_ptodo c) (c_preg c))
    | _ => None
    end
  | MPStep i =>
    match CallModel.cut i (c_pths c) with
    | Some (l, it :: stack, rest) =>
      match pstep sp g stream_request false (c_p c) it with
      | Some (st, its, new, evs) =>
        match posts (c_up c) (psent evs) with
        | Some up => Some (set_p c st (l ++ (its ++ stack) :: rest ++ new) evs (c_ptodo c) (registers_now evs || c_preg c) up)
        | None => None
        end
      | None => None
      end
    | _ => None
    end
  | MPRecv =>
    match c_pths c, c_ptodo c, c_down c with
    | [PI FUser] :: _, [], bs :: down =>
      let c' := mkC (c_p c) (c_pths c) (c_ptr c) [] (c_preg c) (c_up c) down (c_r c) (c_rths c) (c_rtr c) (c_rtodo c) (c_rreg c) (c_tasks c) (c_runs c) in
      match received wp tp (c_preg c) bs with
      | Ret l => Some (set_pths c' (c_pths c) (filter own l) (c_preg c))
      | Fail _ => Some c'
      | Panic => None
      end
    | _, _, _ => None
    end
  (* proxy/flux.go:51-62, handler.go:79-93 *)
  | MPAct =>
    match c_pths c, c_ptodo c with
    | [PI FUser] :: rest, ACall _ f :: todo =>
      match net_call f with Some n => Some (set_pths c ([PNetDo n; PI FUser] :: rest) todo (c_preg c)) | None => None end
    | [PI FUser] :: rest, ARemove _ :: todo => Some (set_pths c (c_pths c) todo false)
    | _, _ => None
    end
  | MRCall i f =>
    match CallModel.cut i (c_rths c) with
    | Some (l, u :: stack, rest) => if is_ruser u && rcalls f then Some (set_rths c (l ++ (RO (FDo f) :: u :: stack) :: rest) (c_rtodo c) (c_tasks c)) else None
    | _ => None
    end
  | MRReturn i =>
    match CallModel.cut i (c_rths c) with
    | Some (l, u :: it :: stack, rest) => if is_ruser u then Some (set_rths c (l ++ (it :: stack) :: rest) (c_rtodo c) (c_tasks c)) else None
    | _ => None
    end
  | MRStep i =>
    match CallModel.cut i (c_rths c) with
    | Some (l, it :: stack, rest) =>
      (* there is no [in]: its callbacks do not matter *)
      match rstep sr (mkF false false false false false false) sid (initial c) (c_r c) it with
      | Some (st, its, new, evs) =>
        match posts (c_down c) (rsent evs) with
        | Some down => Some (set_r c st (l ++ (its ++ stack) :: rest ++ new) evs (c_rtodo c) (c_rreg c) down (c_tasks c) (c_runs c))
        | None => None
        end
      | None => None
      end
    | _ => None
    end
  | MRRecv =>
    match c_rths c, c_rtodo c, c_up c with
    | [RO FUser] :: _, [], bs :: up =>
      let c' := mkC (c_p c) (c_pths c) (c_ptr c) (c_ptodo c) (c_preg c) up (c_down c) (c_r c) (c_rths c) (c_rtr c) [] (c_rreg c) (c_tasks c) (c_runs c) in
      match received wr tr (c_rreg c) bs with
      | Ret l => Some (set_rths c' (c_rths c) (filter own l) (c_tasks c))
      | Fail _ => Some c'
      | Panic => None
      end
    | _, _, _ => None
    end
  (* handler.go:126-163; the goroutine registers the stream *)
  | MRAct =>
    match c_rths c, c_rtodo c with
    | [RO FUser] :: rest, ASend f :: todo => Some (set_rths c (c_rths c) todo (c_tasks c ++ [TSend f]))
    | [RO FUser] :: rest, ARegister _ :: todo => Some (set_rths c (c_rths c) todo (c_tasks c))
    | [RO FUser] :: rest, ARun RS h _ d m _ n :: todo => Some (set_rths c (c_rths c) todo (c_tasks c ++ [TRegister h d m n]))
    | [RO FUser] :: rest, ACall _ (DoRequest n) :: todo => Some (set_rths c (c_rths c) todo (c_tasks c ++ [TRequest n]))
    | [RO FUser] :: rest, ACall _ f :: todo => Some (set_rths c ([RNetDo (rnet_call f); RO FUser] :: rest) todo (c_tasks c))
    | [RO FUser] :: rest, ARemove _ :: todo => Some (set_r c (c_r c) (c_rths c) [] todo false (c_down c) (c_tasks c) (c_runs c))
    | _, _ => None
    end
  (* handler.go:291-336, 649-659, 701-703 *)
  | MTask j i =>
    match CallModel.cut j (c_tasks c) with
    | Some (a, t, b) =>
      match t with
      | TSend f => match posts (c_down c) [f] with Some down => Some (set_r c (c_r c) (c_rths c) [] (c_rtodo c) (c_rreg c) down (a ++ b) (c_runs c)) | None => None end
      | TRegister h d m n => Some (set_r c (c_r c) (c_rths c) [] (c_rtodo c) true (c_down c) (a ++ TStart h d m n :: b) (c_runs c))
      | TStart h d m n =>
        match CallModel.cut i (c_rths c) with
        | Some (l, u :: stack, rest) =>
          if is_ruser u then Some (set_r c (c_r c) (l ++ (RStart :: u :: stack) :: rest) [] (c_rtodo c) (c_rreg c) (c_down c) (a ++ b) (c_runs c ++ [(h, d, m, n)])) else None
        | _ => None
        end
      | TRequest n =>
        match CallModel.cut i (c_rths c) with
        | Some (l, u :: stack, rest) => if is_ruser u then Some (set_rths c (l ++ (RNetDo (RNRequest n) :: u :: stack) :: rest) (c_rtodo c) (a ++ b)) else None
        | _ => None
        end
      end
    | None => None
    end
  | MUp bs => Some (mkC (c_p c) (c_pths c) (c_ptr c) (c_ptodo c) (c_preg c) (c_up c ++ [bs]) (c_down c) (c_r c) (c_rths c) (c_rtr c) (c_rtodo c) (c_rreg c) (c_tasks c) (c_runs c))
  | MDown bs => Some (mkC (c_p c) (c_pths c) (c_ptr c) (c_ptodo c) (c_preg c) (c_up c) (c_down c ++ [bs]) (c_r c) (c_rths c) (c_rtr c) (c_rtodo c) (c_rreg c) (c_tasks c) (c_runs c))
  end.
Fixpoint do_moves (c : conf) (ms : list move) : option conf :=
  match ms with [] => Some c | m :: ms' => match do_move c m with Some c' => do_moves c' ms' | None => None end end.
End Stream.
Arguments conf : clear implicits.
Arguments task : clear implicits.
