(** Model of one request/response call between two peers in any company, from Subscribe of what RequestResponse returned to the caller's callbacks:
    handler/caller.go:33-42 (and alike host/caller.go:31-40, guest/caller.go:38-47), proxy/mono.go, the dispatchers of [DispatchModel] and the goroutines
    they start, the frames of [FramesModel] and the processor of [MonoModel].  Code only; no proofs.

    [CallModel] has any number of calls of this one kind, each move of it being atomic.  Here one call is followed among frames of any other streams
    and of any kinds, in both queues, and in smaller steps: the three steps of Subscribe, and each thing that a dispatcher does with a frame.
    Simplifications: the registries (LookupModel) are reduced to whether they hold the stream; a call on the processor is atomic; the mono is
    subscribed once; a guest's dispatcher, which waits for what the others put in a goroutine, is allowed to go on as well. *)
From Coq Require Import List NArith Bool.
From Verif Require Import Base FramesModel InvokeModel MonoModel ProxyModel DispatchModel.
From Verif Require Import CallModel.
From Verif Require StreamModel.
Import ListNotations.
Open Scope N_scope.

Section Solo.
Context {H : Type}.
Context (wp wr : site).                        (* which of the three dispatchers the requester and the responder have *)
Context (tp tr : ikind -> list (option H)).    (* their handlers *)
Context (sid : N) (data md : bytes).           (* the stream id and the payload *)

(** caller.go:34-41 *)
Definition solo_request : frame := FramesModel.FRequest (mkRequest FrameTypeRequestResponse sid md data false true 1).

(** proxy/mono.go:66-72: the steps of Subscribe. *)
Inductive ustep := URegister | USubscribe | USend.

Record conf := mkS {
  s_called : bool; s_user : list ustep;                 (* whether Subscribe has been called; what of it is still to come *)
  s_proc : proc pay bytes; s_reg : bool;                (* the streamMono's processor; whether the stream is registered *)
  s_ptodo : list (act H unit);                          (* what the requester's dispatcher has still to do *)
  s_up : list bytes; s_down : list bytes;               (* frames on their way to the responder and to the requester *)
  s_rtodo : list (act H unit);                          (* the same of the responder's *)
  s_tasks : list (act H unit); s_runs : list (run H) }. (* goroutines handler.go:133 of this stream; its handler runs *)

Definition solo_create : conf := mkS false [] new_processor false [] [] [] [] [] [].

(** A dispatcher with a frame; the stream is a streamMono. *)
Definition received (w : site) (tbl : ikind -> list (option H)) (reg : bool) (bs : bytes) : outcome derr (list (act H unit)) :=
  match w with
  | Peer => match frame_parse bs with Ret (Some f) => HandleFrame tbl (StreamModel.look sid reg) (fun _ => SMono) f | Ret None => Ret [] | _ => Panic end
  | _ => recv_one tbl (StreamModel.look sid reg) (fun _ => SMono) w bs
  end.

Definition post (q : list bytes) (f : frame) : option (list bytes) := match frame_bytes f with Ret bs => Some (q ++ [bs]) | _ => None end.

Inductive move :=
| SSubscribe                            (* user code subscribes *)
| SUser                                 (* Subscribe goes on *)
| SPRecv | SPAct                        (* the requester's dispatcher takes a frame; goes on *)
| SRRecv | SRAct                        (* the responder's *)
| STask (j : nat)                       (* a goroutine goes on *)
| SConclude (i : nat) (o : pay + bytes) (* the mono of a handler run concludes *)
| SUp (bs : bytes) | SDown (bs : bytes). (* frames of other streams *)

Definition do_move (c : conf) (m : move) : option conf :=
  let '(mkS called user proc reg ptodo up down rtodo tasks runs) := c in
  match m with
  | SSubscribe => if called then None else Some (mkS true [URegister; USubscribe; USend] proc reg ptodo up down rtodo tasks runs)
  (* proxy/mono.go:66-72 *)
  | SUser =>
    match user with
    | [] => None
    | URegister :: l => Some (mkS called l proc true ptodo up down rtodo tasks runs)
    | USubscribe :: l => Some (mkS called l (MonoModel.pstep proc PSubscribe) reg ptodo up down rtodo tasks runs)
    | USend :: l => match post up solo_request with Some up' => Some (mkS called l proc reg ptodo up' down rtodo tasks runs) | None => None end
    end
  | SPRecv =>
    match ptodo, down with
    | [], bs :: rest =>
      match received wp tp reg bs with
      | Ret l => Some (mkS called user proc reg (filter (StreamModel.own sid) l) up rest rtodo tasks runs)
      | Fail _ => Some (mkS called user proc reg [] up rest rtodo tasks runs)
      | Panic => None
      end
    | _, _ => None
    end
  (* proxy/mono.go:42-52.  [None]: what the requester never does for this stream (proved). *)
  | SPAct =>
    match ptodo with
    | ACall _ (OnNext d m) :: l => Some (mkS called user (MonoModel.pstep proc (PSuccess (d, m))) reg l up down rtodo tasks runs)
    | ACall _ OnComplete :: l => Some (mkS called user proc reg l up down rtodo tasks runs)
    | ACall _ (OnError msg) :: l => Some (mkS called user (MonoModel.pstep proc (PError msg)) reg l up down rtodo tasks runs)
    | ARemove _ :: l => Some (mkS called user proc false l up down rtodo tasks runs)
    | _ => None
    end
  (* the responder does not register the stream of a request/response call *)
  | SRRecv =>
    match rtodo, up with
    | [], bs :: rest =>
      match received wr tr false bs with
      | Ret l => Some (mkS called user proc reg ptodo rest down (filter (StreamModel.own sid) l) tasks runs)
      | Fail _ => Some (mkS called user proc reg ptodo rest down [] tasks runs)
      | Panic => None
      end
    | _, _ => None
    end
  (* handler.go:133 and alike *)
  | SRAct =>
    match rtodo with
    | (ASend _ | ARun RR _ _ _ _ _ _) as a :: l => Some (mkS called user proc reg ptodo up down l (tasks ++ [a]) runs)
    | _ => None
    end
  (* handler.go:215-244 *)
  | STask j =>
    match cut j tasks with
    | Some (l, ASend f, q) => match post down f with Some down' => Some (mkS called user proc reg ptodo up down' rtodo (l ++ q) runs) | None => None end
    | Some (l, ARun _ h i d m _ _, q) => Some (mkS called user proc reg ptodo up down rtodo (l ++ q) (runs ++ [mkRun h i d m None]))
    | _ => None
    end
  (* handler.go:246-262 *)
  | SConclude i o =>
    match cut i runs with
    | Some (l, mkRun h k d m None, q) =>
      match post down (answer_of k o) with
      | Some down' => Some (mkS called user proc reg ptodo up down' rtodo tasks (l ++ mkRun h k d m (Some o) :: q))
      | None => None
      end
    | _ => None
    end
  | SUp bs => Some (mkS called user proc reg ptodo (up ++ [bs]) down rtodo tasks runs)
  | SDown bs => Some (mkS called user proc reg ptodo up (down ++ [bs]) rtodo tasks runs)
  end.
Fixpoint do_moves (c : conf) (ms : list move) : option conf :=
  match ms with [] => Some c | m :: ms' => match do_move c m with Some c' => do_moves c' ms' | None => None end end.
End Solo.
Arguments conf : clear implicits.
