(** Model of a streaming call from one module to another through the mesh: go/transport/wasmrs/mesh/mesh.go:279-285 and
    go/transport/wasmrs/host/instance.go:491-546, on top of the streams between a host instance and its guest ([StreamModel]) and the linking of
    [MeshModel].  Code only; no proofs.

    There are two streams: the first between the calling guest and its host instance, the second between the host instance of the exporting module and
    its guest.  The handler of the first is a destination.  It returns what RequestStream of the other instance made (proxy/flux.go:12-28), which
    instance.go:519-543 subscribes; so the responder's flux of the first stream and the subscriber of the second are one object, the subscriber made by
    the processor (processor.go:16-22).  It is in both configurations here and takes every step in both at once.  Its callbacks send frames of the first
    stream, its source's Request and Cancel are those of the second, and its sink is called by the dispatcher of the second.

    Threads of the host process that work on that object are thread [i] of the requester of the second stream and thread [S i] of the responder of the
    first; the dispatcher of the second stream is thread 0 of the former, that of the first thread 0 of the latter, which only starts goroutines or
    panics.  Where one of the two has nothing to do with a step it is in user code.
    Simplifications: those of [StreamModel] and [RelayModel]; the two instances have their own queues (if they are the same instance the queues are one,
    and what is not of a stream is one of the other frames that may come at any time). *)
From Coq Require Import List NArith ZArith Bool.
From Verif Require Import Base FramesModel OperationsModel InvokeModel MonoModel FluxModel ProxyModel DispatchModel ResponderModel MeshModel.
From Verif Require StreamIdModel RelayModel.
From Verif Require Import StreamModel.
Import ListNotations.

Section RelayStream.
Context {G : Type}.
Context (m : mesh) (exported : nat -> ikind -> list (option G)).   (* as in RelayModel *)
Context (shost sguest : bool).                                     (* as in FluxModel: wasm or host *)
Context (a : nat) (d : destination).                               (* the instance of the caller; the destination that is called *)
Context (g : fcfg) (sid1 sid2 : N) (data md md2 : bytes).          (* the subscriber's callbacks; the ids and payloads of the streams *)

Definition hop1 : conf (destination + G) -> move -> option (conf (destination + G)) :=
  do_move Guest Host (RelayModel.relay_tbl m exported a StreamIdModel.Client) (RelayModel.relay_tbl m exported a StreamIdModel.Server) sguest shost g sid1 data md.
(** caller.go:54-62 by the destination's instance, whose subscriber has the callbacks of instance.go:520-540. *)
Definition hop2 : conf (destination + G) -> move -> option (conf (destination + G)) :=
  do_move Host Guest (RelayModel.relay_tbl m exported (d_inst d) StreamIdModel.Server) (RelayModel.relay_tbl m exported (d_inst d) StreamIdModel.Client) shost sguest resp_cfg sid2 data md2.
Fixpoint steps (hop : conf (destination + G) -> move -> option (conf (destination + G))) (c : conf (destination + G)) (ms : list move) : option (conf (destination + G)) :=
  match ms with [] => Some c | mv :: ms' => match hop c mv with Some c' => steps hop c' ms' | None => None end end.

Record duo := mkDuo { x_first : conf (destination + G); x_second : conf (destination + G) }.
(** Numbers of threads: of the caller, of the host process, of the exporting guest. *)
Definition duo_create (n k j : nat) : duo := mkDuo (stream_create n (S k)) (stream_create k j).

Inductive xmove :=
| XFirst (mv : move)       (* the caller, the frames of the first stream and its dispatchers *)
| XSecond (mv : move)      (* the exporting guest, the frames of the second stream and its dispatchers *)
| XTask (j i : nat)        (* the j-th goroutine of the first stream goes on, on thread i of the host process *)
| XThread (i : nat).       (* thread i of the host process goes on *)

Definition first_alone (mv : move) : bool :=
  match mv with MPCall _ _ | MPReturn _ | MPStep _ | MPRecv | MPAct | MRRecv | MRAct | MUp _ | MDown _ => true | _ => false end.
Definition second_alone (mv : move) : bool :=
  match mv with MPRecv | MPAct | MRCall _ _ | MRReturn _ | MRStep _ | MRRecv | MRAct | MTask _ _ | MUp _ | MDown _ => true | _ => false end.

(** What a thread does, by what is on top of its two stacks: the moves of the first and of the second stream.  [sub]: the processor's sink is set. *)
Definition sink_call (n : net) : fcall pay bytes := match n with NNext v => FNext v | NComplete => FComplete | NError e => FluxModel.FError e end.
Definition thread_moves (sub : bool) (initial : N) (i : nat) (s1 : list ritem) (s2 : list pitem) : option (list move * list move) :=
  match s1, s2 with
  (* proxy/flux.go:51-62: the dispatcher of the second stream calls the sink *)
  | _, PNetDo n :: _ => Some (if sub then [MRCall (S i) (sink_call n)] else [], [MPStep i])
  | _, PSetComplete :: _ => Some ([], [MPStep i])
  (* instance.go:518-519: the handler is called and what it returns subscribed *)
  | RStart :: _, _ => Some ([MRStep (S i)], [MPCall i FSubscribe])
  (* instance.go:543-545 *)
  | RAfter :: _, _ => Some ([MRStep (S i)], [MPCall i (FRequest (Z.of_N initial))])
  (* instance.go:704-706 *)
  | RNetDo (RNRequest n) :: _, _ => Some ([MRStep (S i)], [MPCall i (FRequest (Z.of_N n))])
  (* processor.go:16-22: the source sets Request and Cancel, and returns *)
  | RO (FDo FSubscribe) :: _, PI (FDo FSubscribe) :: _ => Some ([MRStep (S i); MRCall (S i) (FOnSubscribe true true)], [MPStep i])
  | RO FUser :: _, PI FHandle :: _ => Some ([MRReturn (S i)], [])
  (* proxy/flux.go:76-122; a goroutine ends with it *)
  | RO (FEmit true (VReqSrc _ | VCancelSrc)) :: rest, PI (FEmit true _) :: _ =>
    Some (MRStep (S i) :: match rest with [] => [] | _ => [MRReturn (S i)] end, [MPStep i])
  (* instance.go:520-540 *)
  | RO (FEmit true _) :: _, PI (FEmit true _) :: _ => Some ([MRStep (S i)], [MPStep i; MPReturn i])
  (* flux.go *)
  | RO _ :: _, PI _ :: _ => Some ([MRStep (S i)], [MPStep i])
  | _, _ => None
  end.

Definition both (x : duo) (ms1 ms2 : list move) : option duo :=
  match steps hop1 (x_first x) ms1, steps hop2 (x_second x) ms2 with Some c1, Some c2 => Some (mkDuo c1 c2) | _, _ => None end.

Definition do_x (x : duo) (mv : xmove) : option duo :=
  match mv with
  | XFirst mv => if first_alone mv then both x [mv] [] else None
  | XSecond mv => if second_alone mv then both x [] [mv] else None
  | XTask j i =>
    match nth_error (c_tasks (x_first x)) j with
    | Some (TSend _) | Some (TRegister _ _ _ _) => both x [MTask j 0] []
    (* a goroutine of its own *)
    | Some (TStart _ _ _ _) | Some (TRequest _) =>
      match i, nth_error (c_rths (x_first x)) (S i), nth_error (c_pths (x_second x)) i with
      | S _, Some [RO FUser], Some [PI FUser] => both x [MTask j (S i)] []
      | _, _, _ => None
      end
    | None => None
    end
  | XThread i =>
    match nth_error (c_rths (x_first x)) (S i), nth_error (c_pths (x_second x)) i with
    | Some s1, Some s2 =>
      match thread_moves (f_sub (p_fl (c_p (x_second x)))) (initial (x_first x)) i s1 s2 with Some (ms1, ms2) => both x ms1 ms2 | None => None end
    | _, _ => None
    end
  end.
Fixpoint do_xs (x : duo) (ms : list xmove) : option duo :=
  match ms with [] => Some x | mv :: ms' => match do_x x mv with Some x' => do_xs x' ms' | None => None end end.
End RelayStream.
Arguments duo : clear implicits.
