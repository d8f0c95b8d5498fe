(** C89: the invokers and wrappers that the code generator writes. *)
From Coq Require Import List NArith ZArith Lia Bool.
From Verif Require Import Base OperationsModel MsgpackModel MsgpackSpec GenModel GenSpec GenProofs GenProps OpGenModel OpGenSpec OpGenProofs.
Import ListNotations.
Open Scope N_scope.

(** The invoker of an operation compiles exactly for the operations that [asks] describes. *)
Theorem C89_invoker : forall imported x, client_compiles imported x = true <-> asks imported x.
Proof. exact invoker. Qed.
Print Assumptions C89_invoker.
(** (n: string, tree: Tree?, words: stream string): stream u16. *)
Definition opx : op := mkOp (Args 7 [([110], One false (TyPrim NString)); ([116], One true (TyType 1)); ([119], Many (TyPrim NString))]) (RMany (Some (TyPrim NU16))).
Example C89_invoker_case : asks importedx opx.
Proof. apply invoker. vm_compute. reflexivity. Qed.

(** The wrapper of a handler compiles exactly for the operations that [serves] describes. *)
Theorem C89_wrapper : forall imported x, server_compiles imported x = true <-> serves imported x.
Proof. exact wrapper. Qed.
Print Assumptions C89_wrapper.
Example C89_wrapper_case : serves importedx opx.
Proof. apply wrapper. vm_compute. reflexivity. Qed.

(** Operations that compile on one side only, or on none: results that are streams of records, or of lists of records; a stream before another
    parameter; a stream parameter of numbers; unary parameters that are aliases, datetimes, lists; results that are aliases of numbers, maps; a stream
    parameter with a single result. *)
Theorem C89_both_refuted :
  let on x := (client_compiles importedx x, server_compiles importedx x) in
  on (mkOp (Args 7 []) (RMany (Some (TyType 1)))) = (true, false)
  /\ on (mkOp (Args 7 []) (RMany (Some (TyList false (TyType 1))))) = (true, false)
  /\ on (mkOp (Args 7 [([119], Many (TyPrim NString)); ([110], One false (TyPrim NString))]) (RMany (Some (TyPrim NString)))) = (true, false)
  /\ on (mkOp (Args 7 [([119], Many (TyPrim NI32))]) (RMany (Some (TyPrim NString)))) = (false, true)
  /\ on (mkOp (Unary (TyAlias 5 NI64)) RVoid) = (false, true)
  /\ on (mkOp (Unary (TyPrim NDatetime)) RVoid) = (false, true)
  /\ on (mkOp (Unary (TyList false (TyPrim NString))) RVoid) = (false, false)
  /\ on (mkOp (Args 7 []) (ROne (TyAlias 5 NI64))) = (false, false)
  /\ on (mkOp (Args 7 []) (ROne (TyMap NString false (TyPrim NString)))) = (false, false)
  /\ on (mkOp (Args 7 [([119], Many (TyPrim NString))]) (ROne (TyPrim NString))) = (false, false).
Proof. vm_compute. repeat split. Qed.
Print Assumptions C89_both_refuted.
Example C89_both_refuted_case : client_compiles importedx opx = true /\ server_compiles importedx opx = true.
Proof. vm_compute. split; reflexivity. Qed.

(** When both compile, the handler receives the parameters that the caller gave. *)
Theorem C89_request : forall f64to32 pt fmt (C : Type) (parse : N -> scal -> option C) (format : N -> C -> scal) imported types,
  (forall n d, types n = Some d -> def_ok imported d) ->
  forall x, asks imported x -> serves imported x ->
  match o_in x with
  | Unary t => forall v, of_type parse format imported types false t v ->
    goes f64to32 pt fmt parse format imported types (client_request (o_in x)) (server_request imported (o_in x)) t v
  | Args n l => types n = Some (Rec (plain_params l)) ->
    match plain_params l with
    | [] => client_request (o_in x) = Some ENothing /\ server_request imported (o_in x) = Some DNothing
    | _ => forall v, of_type parse format imported types false (TyType n) v ->
      goes f64to32 pt fmt parse format imported types (client_request (o_in x)) (server_request imported (o_in x)) (TyType n) v
    end
  end.
Proof.
  intros f64to32 pt fmt C parse format imported types K [i r] A B. cbn [o_in]. unfold asks, serves in A, B. cbn [o_in] in A, B. destruct i as [t|n l].
  - intros v T. apply unary_passes; try assumption; [apply A|apply B].
  - intros E. cbn [client_request server_request]. destruct (plain_params l) eqn:P; [split; reflexivity|]. intros v T. apply codec_passes; [exact K|left; reflexivity|exact T].
Qed.
Print Assumptions C89_request.

(** So do the items of a stream parameter. *)
Theorem C89_items : forall f64to32 pt fmt (C : Type) (parse : N -> scal -> option C) (format : N -> C -> scal) imported types,
  (forall n d, types n = Some d -> def_ok imported d) ->
  forall x t, asks imported x -> serves imported x -> streamIn (o_in x) = Some t ->
  forall v, of_type parse format imported types false t v -> text_ok pt fmt v ->
  goes f64to32 pt fmt parse format imported types (client_item imported t) (server_item imported t) t v.
Proof.
  intros f64to32 pt fmt C parse format imported types K [i r] t A B S v T X. unfold asks, serves in A, B. cbn [o_in] in *. destruct i as [u|n l]; [discriminate S|].
  destruct A as [_ A]. destruct B as [_ B]. unfold streamIn in S. cbn [streams] in S.
  assert (Q : forall l1 m u l2, l = l1 ++ (m, Many u) :: l2 -> no_stream l1 -> u = t).
  { intros l1 m u l2 -> N1. rewrite stream_params_app, (proj1 (no_stream_iff l1) N1) in S. cbn in S. injection S as S. exact S. }
  assert (Z : ~ no_stream l) by (intro N1; rewrite (proj1 (no_stream_iff l) N1) in S; discriminate S).
  destruct A as [[A _]|(l1 & m & u & l2 & E & N1 & N2 & A & _)]; [contradiction|]. destruct B as [[B _]|(k1 & m' & u' & E' & M1 & B & _)]; [contradiction|].
  pose proof (Q _ _ _ _ E N1) as U. pose proof (Q k1 m' u' [] E' M1) as U'. subst u u'. apply item_passes; assumption.
Qed.
Print Assumptions C89_items.

(** And the caller receives the result, or the items of the result. *)
Theorem C89_response : forall f64to32 pt fmt (C : Type) (parse : N -> scal -> option C) (format : N -> C -> scal) imported types,
  (forall n d, types n = Some d -> def_ok imported d) ->
  forall x t, asks imported x -> serves imported x -> o_out x = ROne t \/ o_out x = RMany (Some t) ->
  forall v, of_type parse format imported types false t v -> text_ok pt fmt v ->
  goes f64to32 pt fmt parse format imported types (snd (server_response imported (o_out x))) (snd (client_response imported (o_out x))) t v.
Proof.
  intros f64to32 pt fmt C parse format imported types K [i r] t A B R v T X. cbn [o_out] in *.
  assert (H : exists s, handler_out imported s r) by (unfold serves in B; cbn [o_in o_out] in B; destruct i as [u|n l]; [exists false; apply B|destruct B as [_ [[_ B]|(l1 & m & u & _ & _ & _ & B)]]; [exists false|exists true]; exact B]).
  destruct H as [s H]. destruct R as [->| ->]; cbn [handler_out] in H; [apply one_passes; try assumption; apply H|apply many_passes; assumption].
Qed.
Print Assumptions C89_response.

(** An operation without parameters is sent as no data, and so is the result of one without a result; whatever is received is taken for it. *)
Theorem C89_nothing : forall f64to32 pt fmt (C : Type) (parse : N -> scal -> option C) (format : N -> C -> scal) imported types x,
  (forall n l, o_in x = Args n l -> plain_params l = [] -> exists e d, client_request (o_in x) = Some e /\ server_request imported (o_in x) = Some d /\
     run_enc fmt format imported types e (VRec []) = Some (Ret []) /\ forall fuel data, run_dec f64to32 pt parse imported types fuel d data = Ret (VRec []))
  /\ (o_out x = RVoid -> exists e d, server_response imported (o_out x) = (Mono, Some e) /\ client_response imported (o_out x) = (Mono, Some d) /\
     run_enc fmt format imported types e (VRec []) = Some (Ret []) /\ forall fuel data, run_dec f64to32 pt parse imported types fuel d data = Ret (VRec [])).
Proof.
  intros f64to32 pt fmt C parse format imported types [i r]. cbn [o_in o_out]. split.
  - intros n l -> E. exists ENothing, DNothing. cbn [client_request server_request]. rewrite E. repeat split.
  - intros ->. exists EVoid, DVoid. repeat split.
Qed.
Print Assumptions C89_nothing.
Example C89_nothing_case : let x := mkOp (Args 7 [([119], Many (TyPrim NString))]) (RMany (Some (TyPrim NString))) in
  asks importedx x /\ serves importedx x /\ plain_params [([119], Many (TyPrim NString))] = [].
Proof. split; [apply invoker; vm_compute; reflexivity|]. split; [apply wrapper; vm_compute; reflexivity|reflexivity]. Qed.

(** The caller of an operation that returns a list is never told of an error in the data (but for the bound of the model on the depth): it gets a list of as
    many items as the data announces, or an empty list. *)
Theorem C89_any_list : forall f64to32 pt (C : Type) (parse : N -> scal -> option C) imported types fuel n data,
  match run_dec f64to32 pt parse imported types fuel (DSlice (GN n)) data with
  | Ret v => exists l, v = VList l /\ len l = match ReadArraySize (new_dr data) with Ret (k, _) => k | _ => 0 end
  | Fail e => e = OutOfFuel
  | Panic => True
  end.
Proof. intros. apply any_list. Qed.
Print Assumptions C89_any_list.
(** Two records announced and one there; and a text in place of a list. *)
Theorem C89_list_errors_refuted : forall f64to32 pt,
  snd (client_response importedx (ROne (TyList false (TyType 2)))) = Some (DSlice (GN 2))
  /\ run_dec f64to32 pt parsex importedx typesx 9 (DSlice (GN 2)) [146; 128] = Ret (VList [VRec [VNil; VNil; VNil]; VZero])
  /\ run_dec f64to32 pt parsex importedx typesx 9 (DSlice (GN 2)) [162; 72; 105] = Ret (VList []).
Proof. intros f64to32 pt. split; [reflexivity|]. split; vm_compute; reflexivity. Qed.
Print Assumptions C89_list_errors_refuted.

(** An operation with a record of parameters, a stream of strings, and datetimes as results. *)
Definition typesz (n : N) : option def := if n =? 7 then Some (Rec (plain_params [([110], One false (TyPrim NString)); ([116], One true (TyType 1)); ([119], Many (TyPrim NString))])) else typesx n.
Example C89_request_case : forall f64to32 pt fmt,
  let v := VRec [VScal (SStr [72]); VPtr leafx] in
  typesz 7 = Some (Rec (plain_params [([110], One false (TyPrim NString)); ([116], One true (TyType 1)); ([119], Many (TyPrim NString))]))
  /\ of_type parsex formatx importedx typesz false (TyType 7) v
  /\ exists e d data, client_request (o_in opx) = Some e /\ server_request importedx (o_in opx) = Some d /\ run_enc fmt formatx importedx typesz e v = Some (Ret data)
     /\ run_dec f64to32 pt parsex importedx typesz 5 d data = Ret v.
Proof.
  intros f64to32 pt fmt v. split; [reflexivity|]. split.
  - vm_compute. repeat (split; try reflexivity; try discriminate; try (repeat constructor; cbn; intuition discriminate)).
  - eexists. eexists. eexists. split; [reflexivity|]. split; [reflexivity|]. split; [vm_compute; reflexivity|vm_compute; reflexivity].
Qed.
Example C89_items_case : forall f64to32 pt fmt, streamIn (o_in opx) = Some (TyPrim NString) /\
  exists e d data, client_item importedx (TyPrim NString) = Some e /\ server_item importedx (TyPrim NString) = Some d
     /\ run_enc fmt formatx importedx typesz e (VScal (SStr [72; 105])) = Some (Ret data) /\ run_dec f64to32 pt parsex importedx typesz 0 d data = Ret (VScal (SStr [72; 105])).
Proof. intros f64to32 pt fmt. split; [reflexivity|]. eexists. eexists. eexists. split; [reflexivity|]. split; [reflexivity|]. split; [vm_compute; reflexivity|vm_compute; reflexivity]. Qed.
(** The text of the time is [50]. *)
Example C89_response_case : forall f64to32,
  let fmt := fun _ : gtime => [50] in let pt := fun _ : bytes => Some (mkTime 9 1) in
  let x := mkOp (Unary (TyEnum 5)) (RMany (Some (TyPrim NDatetime))) in let v := VScal (C := bytes) (STime (mkTime 9 1)) in
  asks importedx x /\ serves importedx x /\ text_ok pt fmt v /\
  exists e d data, snd (server_response importedx (o_out x)) = Some e /\ snd (client_response importedx (o_out x)) = Some d
     /\ run_enc fmt formatx importedx typesz e v = Some (Ret data) /\ data = [161; 50] /\ run_dec f64to32 pt parsex importedx typesz 0 d data = Ret v.
Proof.
  intros f64to32 fmt pt x v. split; [apply invoker; vm_compute; reflexivity|]. split; [apply wrapper; vm_compute; reflexivity|].
  split; [split; [reflexivity|split; [split; [reflexivity|repeat constructor]|reflexivity]]|].
  eexists. eexists. eexists. split; [reflexivity|]. split; [reflexivity|]. split; [vm_compute; reflexivity|split; [reflexivity|vm_compute; reflexivity]].
Qed.
