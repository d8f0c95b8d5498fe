(** The credit a requester puts on the wire. *)
From Coq Require Import List NArith ZArith Bool.
From Verif Require Import Base FramesModel MonoModel FluxModel ProxyModel.
Import ListNotations.

Definition frames_sent (tr : list pevent) : list frame := flat_map (fun e => match e with PSent f => [f] | _ => [] end) tr.
Definition is_cancel (f : frame) : bool := match f with FramesModel.FCancel _ => true | _ => false end.
(** The frames that carry credit. *)
Definition credit_frames (tr : list pevent) : list frame := filter (fun f => negb (is_cancel f)) (frames_sent tr).
Definition cancel_frames (tr : list pevent) : list frame := filter is_cancel (frames_sent tr).
(** The credit they carry. *)
Definition credit (f : frame) : N := match f with FramesModel.FRequest r => rf_initial_n r | FRequestN _ n => n | _ => 0 end.
Definition total (tr : list pevent) : N := fold_right N.add 0%N (map credit (frames_sent tr)).

(** What happened up to the moment the stream was marked complete. *)
Fixpoint until_complete (tr : list pevent) : list pevent :=
  match tr with [] => [] | PCompleted :: _ => [] | e :: tr' => e :: until_complete tr' end.
(** And afterwards. *)
Fixpoint after_complete (tr : list pevent) : list pevent := match tr with [] => [] | PCompleted :: tr' => tr' | _ :: tr' => after_complete tr' end.
(** The requests that reached the source, and the requests the subscriber made. *)
Definition demands (tr : list pevent) : list Z := flat_map (fun e => match e with PV (VReqSrc n) => [n] | _ => [] end) tr.
Definition requests (tr : list pevent) : list Z := flat_map (fun e => match e with PV (VCall (FRequest n)) => [n] | _ => [] end) tr.
Definition source_cancels (tr : list pevent) : nat := length (filter (fun e => match e with PV VCancelSrc => true | _ => false end) tr).

(** The first request travels in the request frame, each later one in a RequestN frame. *)
Definition credit_owed (r : request_frame) (ns : list Z) : list frame :=
  match ns with
  | [] => []
  | n :: ns' => FramesModel.FRequest (mkRequest (rf_type r) (rf_stream_id r) (rf_metadata r) (rf_data r) (rf_follows r) (rf_complete r) (u32z n))
                :: map (fun m => FRequestN (rf_stream_id r) (u32z m)) ns'
  end.
Definition in_u32 (n : Z) : Prop := (0 <= n < 4294967296)%Z.
Definition sum (ns : list Z) : Z := fold_right Z.add 0%Z ns.

(** No automatic requests: NoRequest or an OnRequest callback. *)
Definition manual (g : fcfg) : bool := k_norequest g || k_request g.
(** [ds] is [rs] with automatic requests put in, if there are any. *)
Inductive padded (auto : bool) : list Z -> list Z -> Prop :=
| pd_nil : padded auto [] []
| pd_same : forall n rs ds, padded auto rs ds -> padded auto (n :: rs) (n :: ds)
| pd_auto : forall rs ds, auto = true -> padded auto rs ds -> padded auto rs (request_max :: ds).

(** Requests on their way from the subscription to the source. *)
Definition under_way1 (it : pitem) : list Z :=
  match it with PI (FReq n) | PI (FDoReq n) | PI (FRunSrc n) | PI (FEmit true (VReqSrc n)) => [n] | _ => [] end.
Definition under_way (ths : list (list pitem)) : list Z := flat_map (flat_map under_way1) ths.

(** No work item of the OnSubscribe of the processor (the last two never occur). *)
Definition no_on_subscribe (it : pitem) : bool :=
  match it with PI (FDo (FOnSubscribe _ _)) | PI (FCommit (FOnSubscribe _ _)) => false | PI (FEmit false (VReqSrc _)) | PI (FEmit _ (VCall _)) => false | _ => true end.

(** Executions that go on from a configuration. *)
Inductive pfrom (sync : bool) (g : fcfg) (r : request_frame) (has_in : bool) (st0 : pst) (ths0 : list (list pitem)) : pst -> list (list pitem) -> list pevent -> Prop :=
| pf_start : pfrom sync g r has_in st0 ths0 st0 ths0 []
| pf_call : forall st l stack rest tr c, pfrom sync g r has_in st0 ths0 st (l ++ (PI FUser :: stack) :: rest) tr -> side_call c = true ->
    pfrom sync g r has_in st0 ths0 st (l ++ (c :: PI FUser :: stack) :: rest) tr
| pf_return : forall st l stack rest tr, pfrom sync g r has_in st0 ths0 st (l ++ (PI FUser :: stack) :: rest) tr -> stack <> [] ->
    pfrom sync g r has_in st0 ths0 st (l ++ stack :: rest) tr
| pf_step : forall st l it stack rest tr st' its new evs, pfrom sync g r has_in st0 ths0 st (l ++ (it :: stack) :: rest) tr ->
    pstep sync g r has_in st it = Some (st', its, new, evs) -> pfrom sync g r has_in st0 ths0 st' (l ++ (its ++ stack) :: rest ++ new) (tr ++ evs).
