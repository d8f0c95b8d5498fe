(** Model of fire-and-forget calls between two peers: handler/caller.go:44-53 FireAndForget (and alike host/caller.go:42-51,
    guest/caller.go:49-58) and the receiving side, handler/handler.go HandleFrame with handleFireAndForget (269-288) (and alike host/instance.go:467-493,
    guest/guest.go:334-354), through the dispatchers of [DispatchModel], the registries of [LookupModel], the stream ids of [StreamIdModel] and the
    frames of [FramesModel].  Code only; no proofs.

    Both peers call and answer; between them are two queues of encoded frames, as in [CallModel].  What the dispatcher does with a request is a task
    of its own (the goroutine handler.go:141, instance.go:305; the guest runs it at once, guest.go:171, which is one of the orders possible here).
    Simplification: a task is one move; handlers do nothing that is seen here. *)
From Coq Require Import List NArith Bool.
From Verif Require Import Base FramesModel InvokeModel LookupModel StreamIdModel DispatchModel CallModel.
Import ListNotations.
Open Scope N_scope.

Section Fnf.
Context {H : Type}.
Context (w : side -> site).
Context (tbl : side -> ikind -> list (option H)).

(** A call of FireAndForget: the stream id it took, its payload. *)
Record fcall := mkFCall { fc_sid : N; fc_data : bytes; fc_md : bytes }.
(** A handler that has been run, and what it was given. *)
Record frun := mkFRun { fr_handler : H; fr_sid : N; fr_data : bytes; fr_md : bytes }.
(** Counter and registries of the peer (the streams registered here are requestStreams without subscription and sink); its calls; tasks not yet
    done; handlers run; frames taken off the line, and the errors its dispatcher returned. *)
Record fpeer := mkFP { fp_counter : N; fp_odd : lookup unit; fp_even : lookup unit; fp_calls : list fcall; fp_tasks : list (list (act H unit));
                       fp_runs : list frun; fp_in : list bytes; fp_errors : list derr }.
Record fnet := mkFN { fn_peer : side -> fpeer; fn_wire : side -> list bytes }.

Definition new_fpeer : fpeer := mkFP 0 empty_lookup empty_lookup [] [] [] [] [].
Definition fnet_create : fnet := mkFN (fun _ => new_fpeer) (fun _ => []).
Definition set_fpeer (st : fnet) (s : side) (p : fpeer) : fnet := mkFN (fun t => if side_eqb t s then p else fn_peer st t) (fn_wire st).
Definition set_fwire (st : fnet) (s : side) (l : list bytes) : fnet := mkFN (fn_peer st) (fun t => if side_eqb t s then l else fn_wire st t).
Definition fpost (st : fnet) (s : side) (f : frame) : option fnet :=
  match frame_bytes f with Ret bs => Some (set_fwire st (other s) (fn_wire st (other s) ++ [bs])) | _ => None end.

(** caller.go:45-52 *)
Definition frequest (c : fcall) : frame := FRequest (mkRequest FrameTypeRequestFNF (fc_sid c) (fc_md c) (fc_data c) false true 1).

(** handler.go:79-101 *)
Definition fregister (p : fpeer) (sid : N) : option fpeer :=
  if N.odd sid
  then match Add (fp_odd p) sid tt with
       | Some l => Some (mkFP (fp_counter p) l (fp_even p) (fp_calls p) (fp_tasks p) (fp_runs p) (fp_in p) (fp_errors p)) | None => None end
  else match Add (fp_even p) sid tt with
       | Some l => Some (mkFP (fp_counter p) (fp_odd p) l (fp_calls p) (fp_tasks p) (fp_runs p) (fp_in p) (fp_errors p)) | None => None end.
Definition fget (p : fpeer) (sid : N) : option unit := match Get (if N.odd sid then fp_odd p else fp_even p) sid with Some r => r | None => None end.

Definition freceived (s : side) (p : fpeer) (bs : bytes) : outcome derr (list (act H unit)) :=
  match w s with
  | Peer => match frame_parse bs with Ret (Some f) => HandleFrame (tbl s) (fget p) (fun _ => SResp false false) f | Ret None => Ret [] | _ => Panic end
  | _ => recv_one (tbl s) (fget p) (fun _ => SResp false false) (w s) bs
  end.

(** handler.go:269-288: the actions of a task.  [None]: what does not happen with fire-and-forget calls only (proved). *)
Definition fperform (st : fnet) (s : side) (a : act H unit) : option fnet :=
  let p := fn_peer st s in
  match a with
  | ASend f => fpost st s f
  | ARegister sid => match fregister p sid with Some p' => Some (set_fpeer st s p') | None => None end
  | ARun FNF h sid data md _ _ =>
    Some (set_fpeer st s (mkFP (fp_counter p) (fp_odd p) (fp_even p) (fp_calls p) (fp_tasks p) (fp_runs p ++ [mkFRun h sid data md]) (fp_in p) (fp_errors p)))
  | _ => None
  end.
Fixpoint fperform_all (st : fnet) (s : side) (l : list (act H unit)) : option fnet :=
  match l with [] => Some st | a :: l' => match fperform st s a with Some st' => fperform_all st' s l' | None => None end end.

Inductive fmove :=
| MFire (s : side) (data md : bytes)      (* user code calls FireAndForget *)
| MFReceive (s : side)                    (* the dispatcher takes the next frame *)
| MFTask (s : side) (i : nat).            (* a goroutine runs *)

Definition do_fmove (st : fnet) (m : fmove) : option fnet :=
  match m with
  (* caller.go:44-53 *)
  | MFire s data md =>
    let p := fn_peer st s in
    match Next 2 s (fp_counter p) with
    | Some (counter, (sid, _)) =>
      let c := mkFCall sid data md in
      fpost (set_fpeer st s (mkFP counter (fp_odd p) (fp_even p) (fp_calls p ++ [c]) (fp_tasks p) (fp_runs p) (fp_in p) (fp_errors p))) s (frequest c)
    | None => None
    end
  | MFReceive s =>
    let p := fn_peer st s in
    match fn_wire st s with
    | [] => None
    | bs :: rest =>
      match freceived s p bs with
      | Ret l =>
        Some (set_fwire (set_fpeer st s (mkFP (fp_counter p) (fp_odd p) (fp_even p) (fp_calls p) (match l with [] => fp_tasks p | _ => fp_tasks p ++ [l] end)
                                              (fp_runs p) (fp_in p ++ [bs]) (fp_errors p))) s rest)
      | Fail e =>
        Some (set_fwire (set_fpeer st s (mkFP (fp_counter p) (fp_odd p) (fp_even p) (fp_calls p) (fp_tasks p) (fp_runs p) (fp_in p ++ [bs]) (fp_errors p ++ [e]))) s rest)
      | Panic => None
      end
    end
  | MFTask s i =>
    let p := fn_peer st s in
    match cut i (fp_tasks p) with
    | Some (a, l, b) =>
      fperform_all (set_fpeer st s (mkFP (fp_counter p) (fp_odd p) (fp_even p) (fp_calls p) (a ++ b) (fp_runs p) (fp_in p) (fp_errors p))) s l
    | None => None
    end
  end.
End Fnf.
Arguments frun : clear implicits.
Arguments fpeer : clear implicits.
Arguments fnet : clear implicits.
