(** C39, C49, C50: requests are answered, frames reach the stream they name, frames that crash the receiver. *)
From Coq Require Import List NArith Lia Bool String.
From Verif Require Import Base BaseLemmas FramesModel FramesSpec FramesProofs InvokeModel DispatchModel DispatchSpec DispatchProofs.
Import ListNotations.
Open Scope N_scope.

(** ** C39 *)

(** handler.go: every request frame either runs exactly the handler its metadata names, once, with its data, or is answered by
    exactly one Error frame on its own stream. *)
Theorem C39_peer : forall {H S} (tbl : ikind -> list (option H)) (get : N -> option S) kind r k,
  few tbl -> wf (rf_metadata r) -> rf_type r = request_type k ->
  exists l, HandleFrame tbl get kind (FRequest r) = Ret l /\ answered tbl Peer k r l.
Proof. intros H S tbl get kind r k F W T. destruct (peer_request tbl get kind r k F W T) as (l & E & A & _). exists l. auto. Qed.
Print Assumptions C39_peer.
Definition two_handlers (k : ikind) : list (option N) := match k with RR => [Some 70; None; Some 72] | RS => [Some 80] | _ => [] end.
Definition no_streams (n : N) : option N := None.
Example C39_peer_ex :
  HandleFrame two_handlers no_streams (fun _ => SMono) (FRequest (mkRequest 4 3 [0;0;0;2;0;0;0;0;9;9] [5] false true 1))
    = Ret [ARun RR 72 3 [5] [9;9] None 1]
  /\ HandleFrame two_handlers no_streams (fun _ => SMono) (FRequest (mkRequest 6 3 [0;0;0;0;0;0;0;0;9;9] [5] false true 7))
    = Ret [ARegister 3; ARun RS 80 3 [5] [0;0;0;0;0;0;0;0;9;9] None 7]
  /\ HandleFrame two_handlers no_streams (fun _ => SMono) (FRequest (mkRequest 4 3 [0;0;0;1;0;0;0;0] [5] false true 1))
    = Ret [ASend (FError 3 0 not_found)]
  /\ HandleFrame two_handlers no_streams (fun _ => SMono) (FRequest (mkRequest 4 3 [0;0;0;1;0;0;0] [5] false true 1))
    = Ret [ASend (FError 3 0 invalid_metadata)].
Proof. vm_compute. auto. Qed.

(** The two refusals, in the words of the code. *)
Theorem C39_refusals : invalid_metadata = text "Invalid metadata" /\ not_found = text "not_found".
Proof. vm_compute. auto. Qed.
Print Assumptions C39_refusals.

(** Hosts and guests, from the bytes on: a request that is a frame of its own is answered in the same way; one marked as the first of
    several fragments is kept and nothing more is ever done with it. *)
Theorem C39_wire : forall {H S} (tbl : ikind -> list (option H)) (get : N -> option S) kind w bs r,
  few tbl -> wf bs -> frame_parse bs = Ret (Some (FRequest r)) ->
  exists k l, rf_type r = request_type k /\ recv_one tbl get kind w bs = Ret l /\
  (rf_follows r = false -> answered tbl w k r l) /\
  (rf_follows r = true -> sent l = [] /\ runs l = [] /\ registered l = [] /\ stream_calls l = []).
Proof.
  intros H S tbl get kind w bs r F W P. destruct (recv_request tbl get kind w bs r P) as (k & K & E). exists k.
  destruct (handle_ok tbl get w k r F (parsed_wf bs r W P)) as (l & El & A & _). destruct (rf_follows r).
  - eexists. split; [exact K|]. split; [exact E|]. split; [discriminate|]. intros _. repeat split.
  - exists l. split; [exact K|]. split; [rewrite E; exact El|]. split; [intros _; exact A|discriminate].
Qed.
Print Assumptions C39_wire.
Example C39_wire_ex :
  let bs := [0;0;0;3;17;0; 0;0;10; 0;0;0;2;0;0;0;0;9;9; 5] in
  frame_parse bs = Ret (Some (FRequest (mkRequest 4 3 [0;0;0;2;0;0;0;0;9;9] [5] false true 1)))
  /\ recv_one two_handlers no_streams (fun _ => SMono) Guest bs = Ret [ARun RR 72 3 [5] [9;9] None 1]
  /\ recv_one two_handlers no_streams (fun _ => SMono) Host bs = Ret [ARun RR 72 3 [5] [0;0;0;2;0;0;0;0;9;9] None 1].
Proof. vm_compute. auto. Qed.

(** So a request is answered if and only if it is not marked as fragmented. *)
Theorem C39_answered_iff : forall {H S} (tbl : ikind -> list (option H)) (get : N -> option S) kind w bs r,
  few tbl -> wf bs -> frame_parse bs = Ret (Some (FRequest r)) ->
  ((exists k l, rf_type r = request_type k /\ recv_one tbl get kind w bs = Ret l /\ answered tbl w k r l) <-> rf_follows r = false).
Proof.
  intros H S tbl get kind w bs r F W P. destruct (C39_wire tbl get kind w bs r F W P) as (k & l & K & E & A & B). split.
  - intros (k' & l' & _ & E' & _ & _ & A'). destruct (rf_follows r); [|reflexivity]. exfalso. destruct (B eq_refl) as (B1 & B2 & _).
    assert (l' = l) by congruence. subst l'. destruct A' as [(h & _ & _ & R)|(_ & _ & _ & X)]; congruence.
  - intro X. exists k, l. auto.
Qed.
Print Assumptions C39_answered_iff.
Theorem C39_fragmented_refuted : exists bs r, wfb bs = true /\ frame_parse bs = Ret (Some (FRequest r)) /\ names two_handlers RR (rf_metadata r) 72
  /\ recv_one two_handlers no_streams (fun _ => SMono) Guest bs = Ret [AKeep r] /\ recv_one two_handlers no_streams (fun _ => SMono) Host bs = Ret [AKeep r].
Proof.
  exists [0;0;0;3;17;128; 0;0;8; 0;0;0;2;0;0;0;0; 5], (mkRequest 4 3 [0;0;0;2;0;0;0;0] [5] true true 1). vm_compute. repeat split; discriminate || auto.
Qed.
Print Assumptions C39_fragmented_refuted.

(** Requests written by this library are never marked, so all of them are answered. *)
Theorem C39_own_requests : forall {H S} (tbl : ikind -> list (option H)) (get : N -> option S) kind w r,
  few tbl -> frame_in_range (FRequest r) -> len (rf_metadata r) < 2^24 -> wf (rf_metadata r) -> wf (rf_data r) ->
  exists bs k l, frame_bytes (FRequest r) = Ret bs /\ rf_type r = request_type k /\ recv_one tbl get kind w bs = Ret l /\ answered tbl w k (request_on_wire r) l.
Proof.
  intros H S tbl get kind w r F R L Wm Wd. exists (wire (FRequest r)).
  assert (P := frame_parse_wire (FRequest r) R L). cbn [on_wire] in P.
  assert (K : exists k, rf_type (request_on_wire r) = request_type k) by (destruct (parse_form _ _ P) as (_ & _ & _ & X); exact X).
  destruct K as (k & K). exists k. destruct (recv_request tbl get kind w _ _ P) as (k' & K' & E). cbn [rf_follows request_on_wire] in E.
  assert (k' = k) by (rewrite K in K'; destruct k, k'; cbn in K'; reflexivity || discriminate K'). subst k'.
  destruct (handle_ok tbl get w k (request_on_wire r) F Wm) as (l & El & A & _). exists l. split; [apply frame_bytes_wire; assumption|]. split; [exact K|]. split; [rewrite E; exact El|exact A].
Qed.
Print Assumptions C39_own_requests.

(** The handler runs in the context of the stream named in the second four bytes, on hosts and if that stream is registered; elsewhere in the
    connection's context.  Streams are registered for every kind but request/response, by hosts not for fire-and-forget either. *)
Theorem C39_context : forall {H S} (tbl : ikind -> list (option H)) (get : N -> option S) w k r l,
  few tbl -> wf (rf_metadata r) -> handle tbl get w k (rf_stream_id r) (rf_data r) (rf_metadata r) (rf_initial_n r) = Ret l -> runs l <> [] ->
  parents l = [parent_of get w (rf_metadata r)] /\
  registered l = match k, w with RR, _ | FNF, Host => [] | _, _ => [rf_stream_id r] end.
Proof.
  intros H S tbl get w k r l F W E R. destruct (handle_ok tbl get w k r F W) as (l' & El & _ & X). assert (l' = l) by congruence. subst l'.
  destruct (X R) as [X1 X2]. split; [exact X1|]. rewrite X2. destruct k, w; reflexivity.
Qed.
Print Assumptions C39_context.
Example C39_context_ex : handle two_handlers (fun n => if n =? 6 then Some 66 else None) Host RS 3 [] [0;0;0;0;0;0;0;6] 4
  = Ret [ARegister 3; ARun RS 80 3 [] [0;0;0;0;0;0;0;6] (Some 66) 4].
Proof. vm_compute. reflexivity. Qed.

(** ** C49 *)

(** A frame that is not a request makes exactly the calls it stands for, on the stream registered under its id and on no other, and
    removes exactly that stream, if it ends it. *)
Theorem C49_peer : forall {H S} (tbl : ikind -> list (option H)) (get : N -> option S) kind f s,
  is_request f = false -> get (frame_sid f) = Some s -> ~ crashes (kind s) f ->
  exists l, HandleFrame tbl get kind f = Ret l /\ stream_calls l = map (fun c => (s, c)) (asks f)
    /\ removed l = (if ends_stream f then [frame_sid f] else []) /\ sent l = [] /\ runs l = [] /\ registered l = [].
Proof.
  intros H S tbl get kind f s R G C. rewrite (peer_stream tbl get kind f s R G). apply (for_stream_ok get kind). exact C.
Qed.
Print Assumptions C49_peer.
Theorem C49_wire : forall {H S} (tbl : ikind -> list (option H)) (get : N -> option S) kind w bs f s,
  frame_parse bs = Ret (Some f) -> is_request f = false -> get (frame_sid f) = Some s -> ~ crashes (kind s) f ->
  exists l, recv_one tbl get kind w bs = Ret l /\ stream_calls l = map (fun c => (s, c)) (asks f)
    /\ removed l = (if ends_stream f then [frame_sid f] else []) /\ sent l = [] /\ runs l = [] /\ registered l = [].
Proof.
  intros H S tbl get kind w bs f s P R G C. rewrite (recv_stream tbl get kind w bs f P R), G. apply (for_stream_ok get kind). exact C.
Qed.
Print Assumptions C49_wire.
Example C49_ex : let get n := if n =? 5 then Some 55 else None in
  HandleFrame two_handlers get (fun _ => SFlux false) (FPayload (mkPayload 5 [1] [2] false true true)) = Ret [ACall 55 (OnNext [2] [1]); ACall 55 OnComplete; ARemove 5]
  /\ ~ crashes (SFlux false) (FPayload (mkPayload 5 [1] [2] false true true))
  /\ recv_one two_handlers get (fun _ => SMono) Guest [0;0;0;5;44;0;0;0;2;1;104;105] = Ret [ACall 55 (OnError [104;105]); ACall 55 OnComplete; ARemove 5].
Proof. vm_compute. auto. Qed.

(** A frame for an unknown stream changes nothing.  Peers report it, except for RequestN. *)
Theorem C49_unknown : forall {H S} (tbl : ikind -> list (option H)) (get : N -> option S) kind f,
  is_request f = false -> get (frame_sid f) = None ->
  HandleFrame tbl get kind f = match f with FRequestN _ _ => Ret [] | _ => Fail (NotFound (frame_sid f)) end
  /\ forall w bs, frame_parse bs = Ret (Some f) -> recv_one tbl get kind w bs = Ret [].
Proof.
  intros H S tbl get kind f R G. split; [apply peer_unknown; assumption|]. intros w bs P. rewrite (recv_stream tbl get kind w bs f P R), G. reflexivity.
Qed.
Print Assumptions C49_unknown.
Example C49_unknown_ex : HandleFrame two_handlers no_streams (fun _ => SMono) (FCancel 5) = Fail (NotFound 5) /\ no_streams (frame_sid (FCancel 5)) = None.
Proof. vm_compute. auto. Qed.

(** ** C50 *)

(** Which frames crash a peer: only those a registered stream cannot take. *)
Theorem C50_peer_iff : forall {H S} (tbl : ikind -> list (option H)) (get : N -> option S) kind f,
  few tbl -> wf (frame_metadata f) -> (is_request f = true -> frame_type f < 8) ->
  (HandleFrame tbl get kind f = Panic <-> exists s, get (frame_sid f) = Some s /\ crashes (kind s) f).
Proof. intros H S. exact (@peer_panic H S). Qed.
Print Assumptions C50_peer_iff.

(** Which bytes crash a host or guest: a header cut short, a body cut short for a request or a registered stream, and the same frames. *)
Theorem C50_wire_iff : forall {H S} (tbl : ikind -> list (option H)) (get : N -> option S) kind w bs, few tbl -> wf bs ->
  (recv_one tbl get kind w bs = Panic <->
   len bs < 6 \/ (frame_parse bs = Panic /\ (wire_type bs < 8 \/ get (wire_sid bs) <> None))
   \/ (exists f s, frame_parse bs = Ret (Some f) /\ get (frame_sid f) = Some s /\ crashes (kind s) f)).
Proof.
  intros H S tbl get kind w bs F W. rewrite (recv_ok tbl get kind w bs F W). destruct (N.lt_ge_cases (len bs) 6) as [L|L].
  - split; auto.
  - destruct (wire_fields bs W L) as [-> ->]. reflexivity.
Qed.
Print Assumptions C50_wire_iff.
Example C50_ex : HandleFrame two_handlers (fun _ => Some 1) (fun _ => SMono) (FRequestN 1 5) = Panic
  /\ recv_one two_handlers (fun _ => Some 1) (fun _ => SMono) Guest [0;0;0;5;44;0;0;0] = Panic
  /\ recv_one two_handlers no_streams (fun _ => SMono) Guest [0;0;0;5;44;0;0;0] = Ret []
  /\ wire_type [0;0;0;5;44;0;0;0] = 11 /\ wire_sid [0;0;0;5;44;0;0;0] = 5.
Proof. vm_compute. auto. Qed.

(** Hence a peer can be crashed with two well-formed frames: a request for a stream, and its Cancel.  The first one registers a
    stream without a sink (handler.go:308-310), the second calls the sink. *)
Theorem C50_cancel_refuted : exists r l, HandleFrame two_handlers no_streams (fun _ : N => SMono) (FRequest r) = Ret l /\ registered l = [rf_stream_id r] /\ rf_type r = 6
  /\ forall (get : N -> option N) s sub, get (rf_stream_id r) = Some s -> HandleFrame two_handlers get (fun _ => SResp sub false) (FCancel (rf_stream_id r)) = Panic.
Proof.
  exists (mkRequest 6 3 [0;0;0;0;0;0;0;0] [5] false true 7). eexists. split; [vm_compute; reflexivity|]. split; [reflexivity|]. split; [reflexivity|].
  intros get s sub G. cbn [rf_stream_id] in *. unfold HandleFrame. cbn [frame_type frame_sid]. rewrite G. reflexivity.
Qed.
Print Assumptions C50_cancel_refuted.
