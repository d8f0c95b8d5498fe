(** Model of the life of a transport: go/transport/rsocket/transport.go Start (174-213), loopReadBuffer (153-171) and Close (128-134), over the
    buffer of [UnboundedModel].  Code only; no proofs.

    Two goroutines, Start's and loopReadBuffer's, take atomic steps in any order; the methods of the buffer take the steps of UnboundedModel.
    What a read of the connection gives and what HandleFrame returns is chosen by the environment, at any time.  Simplifications: a panic of
    HandleFrame (which ends the process) does not happen; runtime.Gosched is a pause like any other; conn.Close succeeds. *)
From Coq Require Import List Bool.
From Verif Require Import Base UnboundedModel.
Import ListNotations.

Section Transport.
Context {F E : Type}.                 (* frames; errors *)

(** What Start returns: nil after io.EOF (transport.go:203-205), ctx.Err() (198), the error of a read (206-208), the error of a dispatch (200). *)
Inductive result := RNil | RCtx | RRead (e : E) | RDispatch (e : E).

(** Where Start is. *)
Inductive spc :=
| SSelect                  (* transport.go:196 *)
| SRead                    (* 202, in conn.Read *)
| SPut (f : F)             (* 210, about to call Put *)
| SPutting                 (* in Put, holding the mutex *)
| SReturn (r : result)     (* a return has been executed; 187, about to call Dispose *)
| SDisposing (r : result)  (* in Dispose, holding the mutex *)
| SWait (r : result)       (* 189 <-done *)
| SReturned (r : result).  (* the connection is closed (176), Start has returned *)

(** Where loopReadBuffer is. *)
Inductive lpc :=
| LRecv                    (* transport.go:158, receiving from the channel *)
| LHandle (f : F)          (* 159, in HandleFrame *)
| LLoad                    (* 167, about to call Load *)
| LLoading                 (* in Load, holding the mutex *)
| LExit                    (* 155 done <- struct{}{} *)
| LGone.

(** t_err: errChan, of capacity 1 (transport.go:180).  t_done: whether done, of capacity 1 (179), holds its message. *)
Record transport := mkT { t_buf : ubuf F; t_err : option E; t_done : bool; t_ctx : bool; t_start : spc; t_loop : lpc }.

(** transport.go:174-193. *)
Definition tstart : transport := mkT NewUnbounded None false false SSelect LRecv.

(** What can be seen: a frame read, the end of reading (None: io.EOF), a frame handled with its result, the cancellation of the context, the
    closing of the connection at the end of Start. *)
Inductive tevent :=
| ORead (f : F) | OEnd (e : option E) | OHandled (f : F) (e : option E) | OCancel | OReturn (r : result) | OTau.

Inductive taction :=
| TCtx                            (* the context is cancelled *)
| TPickCtx | TPickErr | TPickDefault   (* the choices of transport.go:196-201 *)
| TRead (r : F + option E)        (* conn.Read returns *)
| TStart                          (* Start goes on *)
| TLoop                           (* loopReadBuffer goes on *)
| THandled (e : option E).        (* HandleFrame returns *)

Definition on_buf (t : transport) (r : option (outcome unit (ubuf F * event F))) (k : ubuf F -> event F -> transport)
  : option (outcome unit (transport * tevent)) :=
  match r with
  | Some (Ret (b, e)) => Some (Ret (k b e, OTau))
  | Some _ => Some Panic
  | None => None
  end.
Definition is_idle (b : ubuf F) : bool := match u_pc b with Idle => true | _ => false end.

(** One step; [None]: not enabled. *)
Definition tstep (t : transport) (a : taction) : option (outcome unit (transport * tevent)) :=
  let '(mkT b err done ctx s l) := t in
  match a, s, l with
  | TCtx, _, _ => if ctx then None else Some (Ret (mkT b err done true s l, OCancel))
  (* transport.go:197-198 *)
  | TPickCtx, SSelect, _ => if ctx then Some (Ret (mkT b err done ctx (SReturn RCtx) l, OTau)) else None
  (* 199-200 *)
  | TPickErr, SSelect, _ => match err with Some e => Some (Ret (mkT b None done ctx (SReturn (RDispatch e)) l, OTau)) | None => None end
  (* 201-202 *)
  | TPickDefault, SSelect, _ => match ctx, err with false, None => Some (Ret (mkT b err done ctx SRead l, OTau)) | _, _ => None end
  (* 202-210 *)
  | TRead (inl f), SRead, _ => Some (Ret (mkT b err done ctx (SPut f) l, ORead f))
  | TRead (inr None), SRead, _ => Some (Ret (mkT b err done ctx (SReturn RNil) l, OEnd None))
  | TRead (inr (Some e)), SRead, _ => Some (Ret (mkT b err done ctx (SReturn (RRead e)) l, OEnd (Some e)))
  (* 210; a Put in a disposed buffer returns at once *)
  | TStart, SPut f, _ => on_buf t (ustep b (ABeginPut f)) (fun b' _ => mkT b' err done ctx (if is_idle b' then SSelect else SPutting) l)
  | TStart, SPutting, _ => on_buf t (ustep b AStep) (fun b' _ => mkT b' err done ctx (if is_idle b' then SSelect else SPutting) l)
  (* 187 *)
  | TStart, SReturn r, _ => on_buf t (ustep b ABeginDispose) (fun b' _ => mkT b' err done ctx (if is_idle b' then SWait r else SDisposing r) l)
  | TStart, SDisposing r, _ => on_buf t (ustep b AStep) (fun b' _ => mkT b' err done ctx (if is_idle b' then SWait r else SDisposing r) l)
  (* 189, 175-177 *)
  | TStart, SWait r, _ => if done then Some (Ret (mkT b err false ctx (SReturned r) l, OReturn r)) else None
  (* 157-158 *)
  | TLoop, _, LRecv => on_buf t (ustep b ARecv) (fun b' e => mkT b' err done ctx s (match e with EvReceived f => LHandle f | _ => LExit end))
  (* 159-166 *)
  | THandled e, _, LHandle f =>
      let err' := match e, err with Some x, None => Some x | _, _ => err end in
      Some (Ret (mkT b err' done ctx s LLoad, OHandled f e))
  (* 167-169 *)
  | TLoop, _, LLoad => on_buf t (ustep b ABeginLoad) (fun b' _ => mkT b' err done ctx s (if is_idle b' then LRecv else LLoading))
  | TLoop, _, LLoading => on_buf t (ustep b AStep) (fun b' _ => mkT b' err done ctx s (if is_idle b' then LRecv else LLoading))
  (* 154-156 *)
  | TLoop, _, LExit => if done then None else Some (Ret (mkT b err true ctx s LGone, OTau))
  | _, _, _ => None
  end.

Inductive trun : transport -> list tevent -> outcome unit transport -> Prop :=
| trun_nil : forall t, trun t [] (Ret t)
| trun_step : forall t a t' e es r, tstep t a = Some (Ret (t', e)) -> trun t' es r -> trun t (e :: es) r
| trun_panic : forall t a, tstep t a = Some Panic -> trun t [] Panic.
End Transport.
Arguments result : clear implicits.
Arguments spc : clear implicits.
Arguments lpc : clear implicits.
Arguments transport : clear implicits.
Arguments tevent : clear implicits.
Arguments taction : clear implicits.
