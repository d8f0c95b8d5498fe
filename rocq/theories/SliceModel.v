(** Model of go/rx/flux/slice.go and response.go: fluxes whose source hands out the values of a slice on demand.
    Code only; no proofs.

    The subscriber machine of [FluxModel] with the source filled in; the subscriber's side - callbacks and whoever holds
    the subscription - is still arbitrary user code.  Requests run at once, as in flux_webassembly.go:11-13. *)
From Coq Require Import List Arith ZArith Bool.
From Verif Require Import MonoModel FluxModel.
Import ListNotations.

Section Slice.
Context {T E : Type}.
Context (g : fcfg).
(** [false]: FromSlice.  [true]: a source whose Request is SliceResponse(sink, slice). *)
Context (response : bool).
(** Whether user code may request again while the source is still answering a request. *)
Context (nested : bool).

Inductive sitem :=
| SI (it : fitem T E)
| SBody (n : Z)               (* the source's Request(n) is entered *)
| SLoop (i : Z)               (* slice.go:7-14 *)
| SRespond (i num : Z)        (* response.go:9-16 *)
| SRet.                       (* the source's function returns *)

Definition is_source (it : sitem) : bool := match it with SBody _ | SLoop _ | SRespond _ _ => true | _ => false end.

(** One work item with the subscriber and the rest of the slice; [None]: a panic. *)
Definition sstep (st : flst) (vs : list T) (it : sitem) : option (flst * list T * list sitem * list (fevent T E)) :=
  match it with
  (* slice.go:4-5 *)
  | SI (FDo FSubscribe) =>
    match fstep (T:=T) (E:=E) true g st (FDo FSubscribe) with
    | Some (st', _, _, evs) => Some (st', vs, [SI (FDo (FOnSubscribe true false)); SRet; SI FHandle], evs)
    | None => None
    end
  | SI (FEmit true (VReqSrc n)) => Some (st, vs, [SBody n], [VReqSrc n])
  | SI it =>
    match fstep true g st it with
    | Some (st', its, _, evs) => Some (st', vs, map SI its, evs)
    | None => None
    end
  | SBody n =>
    if response
    then Some (st, vs, [SRespond 0 (let num := Z.of_nat (length vs) in if (n <? num)%Z then n else num)], [])   (* response.go:5-8 *)
    else Some (st, vs, [SLoop n], [])
  | SLoop i =>
    match vs with
    | v :: vs' => if (0 <? i)%Z then Some (st, vs', [SI (FDo (FNext v)); SLoop (i - 1)], []) else Some (st, vs, [SRet], [])
    | [] => Some (st, vs, [SI (FDo FComplete); SRet], [])
    end
  | SRespond i num =>
    if (i <? num)%Z
    then match nth_error vs (Z.to_nat i) with
         | Some v => Some (st, vs, [SI (FDo (FNext v)); SRespond (i + 1) num], [])
         | None => None                                       (* index out of range *)
         end
    else if ((num <? 0) || (Z.of_nat (length vs) <? num))%Z then None    (* slice bounds out of range *)
    else let vs' := skipn (Z.to_nat num) vs in
         Some (st, vs', match vs' with [] => [SI (FDo FComplete); SRet] | _ => [SRet] end, [])
  | SRet => Some (st, vs, [], [])
  end.

(** What the subscriber's side can call. *)
Definition subscriber_call (c : fcall T E) : bool :=
  match c with FSubscribe | FNotify | FRequest _ | FCancel | FClose => true | _ => false end.

Inductive sreach (values : list T) : flst -> list T -> list sitem -> list (fevent T E) -> Prop :=
| s_init : sreach values flux_create values [SI FUser] []
| s_call : forall st vs stack tr c, sreach values st vs (SI FUser :: stack) tr -> subscriber_call c = true ->
    sreach values st vs (SI (FDo c) :: SI FUser :: stack) tr
| s_return : forall st vs stack tr, sreach values st vs (SI FUser :: stack) tr -> stack <> [] -> sreach values st vs stack tr
| s_step : forall st vs it stack tr st' vs' its evs, sreach values st vs (it :: stack) tr ->
    sstep st vs it = Some (st', vs', its, evs) ->
    (nested = false -> existsb is_source its = true -> existsb is_source stack = false) ->
    sreach values st' vs' (its ++ stack) (tr ++ evs).
End Slice.
Arguments sitem : clear implicits.
