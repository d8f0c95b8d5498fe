(** A request/response call in any company. *)
From Coq Require Import List NArith ZArith Bool Lia.
From Coq Require Import ZifyBool ZifyNat ZifyN.
From Verif Require Import Base BaseLemmas FramesModel FramesSpec FramesProofs InvokeModel InvokeSpec InvokeProofs.
From Verif Require Import MonoModel ProxyModel DispatchModel DispatchSpec DispatchProofs CallModel CallSpec CallInv CallProofs.
From Verif Require StreamModel StreamSpec StreamWire.
From Verif Require Import SoloModel SoloSpec.
Import ListNotations.
Open Scope N_scope.

Section Proofs.
Context {H : Type}.
Context (wp wr : site) (tp tr : ikind -> list (option H)) (sid : N) (data md : bytes).
Context (Few : DispatchSpec.few tr) (Sid : sid < 2^31) (Snd : sendable data md).
Notation conf := (conf H).
Notation act := (act H unit).
Notation own := (@StreamModel.own H sid).
Notation received := (@received H sid).
Notation do_move := (do_move wp wr tp tr sid data md).
Notation mine := (mine sid).

(** ** Frames *)
Definition refused : bytes := if len md <? 8 then invalid_metadata else not_found.
Definition ask : bytes := on_line (Req (sid, data, md)).
Definition reply (o : pay + bytes) : bytes := on_line (Rep (sid, o)).
Lemma ask_ok : msg_ok (Req (sid, data, md)).
Proof. split; assumption. Qed.
Lemma refused_ok : sendable_out (inr refused).
Proof. cbn [sendable_out]. unfold refused. destruct (len md <? 8); reflexivity. Qed.
Lemma reply_ok : forall o, sendable_out o -> msg_ok (Rep (sid, o)).
Proof. intros o O. split; assumption. Qed.

Definition parses (bs : bytes) : Prop := (exists f, frame_parse bs = Ret (Some f)) /\ (mine bs = true \/ wf bs).
Lemma msg_mine : forall m, msg_ok m -> frame_sid (msg_frame m) = sid -> mine (on_line m) = true /\ parses (on_line m).
Proof. intros m M E. unfold parses, SoloSpec.mine. rewrite (msg_parse m M), E, N.eqb_refl. split; [reflexivity|split; [eexists; reflexivity|left; reflexivity]]. Qed.
Lemma ask_mine : mine ask = true /\ parses ask.
Proof. apply msg_mine; [apply ask_ok|reflexivity]. Qed.
Lemma reply_mine : forall o, sendable_out o -> mine (reply o) = true /\ parses (reply o).
Proof. intros o O. apply msg_mine; [apply reply_ok; exact O|destruct o as [[? ?]|?]; reflexivity]. Qed.
Lemma foreign_mine : forall bs, StreamSpec.foreign sid bs /\ wf bs -> mine bs = false /\ parses bs.
Proof. intros bs ((f & P & N) & W). unfold parses, SoloSpec.mine. rewrite P. split; [apply N.eqb_neq; exact N|split; [eexists; reflexivity|right; exact W]]. Qed.
Lemma mine_foreign : forall bs, parses bs -> mine bs = false -> StreamSpec.foreign sid bs.
Proof. intros bs ((f & P) & _) M. unfold SoloSpec.mine in M. rewrite P in M. exists f. split; [exact P|apply N.eqb_neq; exact M]. Qed.

(** ** Dispatchers *)
Lemma recv_foreign : forall w tbl reg bs l, StreamSpec.foreign sid bs -> received w tbl reg bs = Ret l -> filter own l = [].
Proof.
  intros w tbl reg bs l (f & P & N) X. destruct (is_request f) eqn:R.
  - destruct f as [| | | |r]; try discriminate R. cbn [frame_sid] in N. destruct w; cbn [SoloModel.received] in X.
    + rewrite P in X. destruct (parse_form bs _ P) as (_ & _ & _ & k & K). unfold HandleFrame in X. cbn [frame_type] in X. rewrite K in X. replace (FrameTypeRequestN <=? request_type k) with false in X by (destruct k; reflexivity).
      rewrite kind_of_type in X. exact (StreamWire.handle_ids sid _ _ _ _ _ _ _ _ _ X N).
    + destruct (recv_request tbl (StreamModel.look sid reg) (fun _ => SMono) Host bs r P) as (k & _ & E). rewrite E in X. destruct (rf_follows r); [|exact (StreamWire.handle_ids sid _ _ _ _ _ _ _ _ _ X N)]. injection X as <-. cbn [filter]. unfold StreamModel.own. apply N.eqb_neq in N. rewrite N. reflexivity.
    + destruct (recv_request tbl (StreamModel.look sid reg) (fun _ => SMono) Guest bs r P) as (k & _ & E). rewrite E in X. destruct (rf_follows r); [|exact (StreamWire.handle_ids sid _ _ _ _ _ _ _ _ _ X N)]. injection X as <-. cbn [filter]. unfold StreamModel.own. apply N.eqb_neq in N. rewrite N. reflexivity.
  - destruct w; cbn [SoloModel.received] in X.
    + rewrite P, (peer_unknown tbl (StreamModel.look sid reg) (fun _ => SMono) f R (StreamWire.look_other sid _ _ N)) in X. destruct f; try discriminate X. injection X as <-. reflexivity.
    + rewrite (recv_stream tbl (StreamModel.look sid reg) (fun _ => SMono) Host bs f P R), (StreamWire.look_other sid _ _ N) in X. injection X as <-. reflexivity.
    + rewrite (recv_stream tbl (StreamModel.look sid reg) (fun _ => SMono) Guest bs f P R), (StreamWire.look_other sid _ _ N) in X. injection X as <-. reflexivity.
Qed.

Lemma handle_rr1 : forall get n,
  ((forall h, ~ names tr RR md h) /\ @handle H unit tr get wr RR sid data md n = Ret [ASend (FramesModel.FError sid 0 refused)])
  \/ exists h parent, names tr RR md h /\ handle tr get wr RR sid data md n = Ret [ARun RR h sid data (handler_metadata wr RR md) parent n].
Proof.
  intros get n. destruct Snd as (W & _). unfold DispatchModel.handle, refused. destruct (N.ltb_spec (len md) 8) as [L|L].
  - left. split; [intros h [A _]; lia|reflexivity].
  - rewrite get_be4 by (assumption || lia). cbn [bind].
    assert (P : match wr with
                | Host => do rest <- slice_from md 4 ; do p <- get_be 4 rest ; Ret (if p =? 0 then None else get p)
                | _ => Ret None
                end = @Ret derr _ (parent_of get wr md)).
    { destruct wr; try reflexivity. rewrite slice_ok by lia. cbn [bind]. change (N.to_nat 4) with 4%nat.
      rewrite get_be4; [reflexivity|apply wf_skipn; exact W|]. rewrite len_skipn. lia. }
    rewrite P. cbn [bind]. rewrite (get_from_slot get _ _ (Few RR)). cbn [bind]. unfold InvokeProofs.slot.
    destruct (nth_error (tr RR) (N.to_nat (number4 md))) as [[h|]|] eqn:Q.
    + right. exists h, (parent_of get wr md). split; [split; [lia|exact Q]|].
      assert (R : (if strips wr RR then slice_from md 8 else Ret md) = @Ret derr _ (handler_metadata wr RR md)).
      { destruct wr; try reflexivity; cbn [strips handler_metadata]; rewrite slice_ok by lia; reflexivity. }
      rewrite R. cbn [bind]. destruct wr; reflexivity.
    + left. split; [intros h [_ B]; congruence|reflexivity].
    + left. split; [intros h [_ B]; congruence|reflexivity].
Qed.

(** Who is to answer: a handler, with the parent stream passed to it, or nobody. *)
Definition duty (K : option (H * option unit)) : act :=
  match K with Some (h, p) => ARun RR h sid data (handler_metadata wr RR md) p 1 | None => ASend (FramesModel.FError sid 0 refused) end.
Definition fair (K : option (H * option unit)) : Prop := match K with Some (h, _) => names tr RR md h | None => forall h, ~ names tr RR md h end.
Lemma recv_ask : forall reg, exists K, fair K /\ received wr tr reg ask = Ret [duty K].
Proof.
  intro reg. assert (M := ask_ok).
  assert (E : received wr tr reg ask = handle tr (StreamModel.look sid reg) wr RR sid data md 1).
  { unfold ask, SoloModel.received. destruct wr eqn:WY.
    - rewrite (msg_parse _ M). reflexivity.
    - destruct (recv_request tr (StreamModel.look sid reg) (fun _ => SMono) Host _ _ (msg_parse _ M)) as (k & K & ->). cbn in K. destruct k; try discriminate K. reflexivity.
    - destruct (recv_request tr (StreamModel.look sid reg) (fun _ => SMono) Guest _ _ (msg_parse _ M)) as (k & K & ->). cbn in K. destruct k; try discriminate K. reflexivity. }
  rewrite E. destruct (handle_rr1 (StreamModel.look sid reg) 1) as [[Nb ->]|(h & parent & Nm & ->)].
  - exists None. split; [exact Nb|reflexivity].
  - exists (Some (h, parent)). split; [exact Nm|reflexivity].
Qed.
Definition deliver (o : pay + bytes) : list act :=
  (match o with inl (d, m) => [ACall tt (OnNext d m); ACall tt OnComplete] | inr e => [ACall tt (OnError e); ACall tt OnComplete] end) ++ [ARemove sid].
Lemma recv_reply : forall o, sendable_out o -> received wp tp true (reply o) = Ret (deliver o).
Proof.
  intros o O. assert (M := reply_ok o O). unfold reply. set (x := Rep (sid, o)) in *.
  assert (R : is_request (msg_frame x) = false) by (destruct o as [[d m]|e]; reflexivity).
  assert (F : frame_sid (msg_frame x) = sid) by (destruct o as [[d m]|e]; reflexivity).
  assert (G : StreamModel.look sid true (frame_sid (msg_frame x)) = Some tt) by (rewrite F; apply (StreamWire.look_own sid true)).
  assert (E : received wp tp true (on_line x) = for_stream (fun _ => SMono) tt (msg_frame x)).
  { unfold SoloModel.received. destruct wp.
    - rewrite (msg_parse x M). apply peer_stream; [exact R|exact G].
    - rewrite (recv_stream tp (StreamModel.look sid true) (fun _ => SMono) Host _ _ (msg_parse x M) R), G. reflexivity.
    - rewrite (recv_stream tp (StreamModel.look sid true) (fun _ => SMono) Guest _ _ (msg_parse x M) R), G. reflexivity. }
  rewrite E. destruct o as [[d m]|e]; reflexivity.
Qed.
Lemma own_duty : forall K, filter own [duty K] = [duty K].
Proof. intros [[h p]|]; cbn [duty filter]; unfold StreamModel.own; cbn [frame_sid]; rewrite N.eqb_refl; reflexivity. Qed.
Lemma own_deliver : forall o, filter own (deliver o) = deliver o.
Proof. intros [[d m]|e]; unfold deliver; cbn [app filter StreamModel.own]; rewrite N.eqb_refl; reflexivity. Qed.

(** ** Phases of the call *)
Inductive phase :=
| A0 | A1 | A2 | A3                                       (* before Subscribe, and its three steps *)
| Asked                                                    (* the request is on its way *)
| Taken (K : option (H * option unit)) | Started (K : option (H * option unit)) (* taken by the dispatcher; by a goroutine *)
| Running (h : H)
| Answered (K : option H) (o : pay + bytes)                (* the answer is on its way *)
| Back (K : option H) (o : pay + bytes) (n : nat).         (* taken by the dispatcher, which has [n] things left to do *)

Definition subbed : proc pay bytes := mkProc None None [(false, [])].
Definition over (o : pay + bytes) : proc pay bytes := mkProc None None [(true, [o])].
Definition the_run (h : H) (o : option (pay + bytes)) : run H := mkRun h sid data (handler_metadata wr RR md) o.
Definition the_runs (K : option H) (o : pay + bytes) : list (run H) := match K with Some h => [the_run h (Some o)] | None => [] end.
Definition fit (K : option H) (o : pay + bytes) : Prop :=
  sendable_out o /\ match K with Some h => names tr RR md h | None => (forall h, ~ names tr RR md h) /\ o = inr refused end.
Definition legal (ph : phase) : Prop :=
  match ph with
  | Taken K | Started K => fair K
  | Running h => names tr RR md h
  | Answered K o => fit K o
  | Back K o n => fit K o /\ (n <= 3)%nat
  | _ => True
  end.

(** What a configuration looks like, frames of other streams left out. *)
Record look := mkLook { l_called : bool; l_user : list ustep; l_proc : proc pay bytes; l_reg : bool; l_ptodo : list act; l_up : list bytes; l_down : list bytes;
                        l_rtodo : list act; l_tasks : list act; l_runs : list (run H) }.
Definition shape (ph : phase) : look :=
  match ph with
  | A0 => mkLook false [] new_processor false [] [] [] [] [] []
  | A1 => mkLook true [URegister; USubscribe; USend] new_processor false [] [] [] [] [] []
  | A2 => mkLook true [USubscribe; USend] new_processor true [] [] [] [] [] []
  | A3 => mkLook true [USend] subbed true [] [] [] [] [] []
  | Asked => mkLook true [] subbed true [] [ask] [] [] [] []
  | Taken K => mkLook true [] subbed true [] [] [] [duty K] [] []
  | Started K => mkLook true [] subbed true [] [] [] [] [duty K] []
  | Running h => mkLook true [] subbed true [] [] [] [] [] [the_run h None]
  | Answered K o => mkLook true [] subbed true [] [] [reply o] [] [] (the_runs K o)
  | Back K o n => mkLook true [] (match n with 3%nat => subbed | _ => over o end) (match n with 0%nat => false | _ => true end)
                         (skipn (3 - n) (deliver o)) [] [] [] [] (the_runs K o)
  end.
Definition view (c : conf) : look :=
  mkLook (s_called c) (s_user c) (s_proc c) (s_reg c) (s_ptodo c) (filter mine (s_up c)) (filter mine (s_down c)) (s_rtodo c) (s_tasks c) (s_runs c).
Definition inv (c : conf) : Prop :=
  (exists ph, legal ph /\ view c = shape ph) /\ Forall parses (s_up c) /\ Forall parses (s_down c).

Lemma inv_init : inv solo_create.
Proof. split; [exists A0; split; [exact I|reflexivity]|]. split; constructor. Qed.

Lemma step_proc : MonoModel.pstep new_processor PSubscribe = subbed.
Proof. reflexivity. Qed.
Lemma success_proc : forall v, MonoModel.pstep subbed (PSuccess v) = over (inl v).
Proof. reflexivity. Qed.
Lemma error_proc : forall e, MonoModel.pstep subbed (PError e) = over (inr e).
Proof. reflexivity. Qed.
Lemma filter_snoc_mine : forall l bs, mine bs = true -> filter mine (l ++ [bs]) = filter mine l ++ [bs].
Proof. intros l bs M. rewrite filter_app. cbn [filter]. rewrite M. reflexivity. Qed.
Lemma filter_snoc_other : forall l bs, mine bs = false -> filter mine (l ++ [bs]) = filter mine l.
Proof. intros l bs M. rewrite filter_app. cbn [filter]. rewrite M, app_nil_r. reflexivity. Qed.
Lemma snoc_parses : forall l bs, Forall parses l -> parses bs -> Forall parses (l ++ [bs]).
Proof. intros l bs A B. apply Forall_app. split; [exact A|constructor; [exact B|constructor]]. Qed.

Lemma cut_one : forall {A} j (x : A) r, cut j [x] = Some r -> r = ([], x, []).
Proof. intros A [|[|j]] x r; cbn; intro E; try discriminate E; injection E as <-; reflexivity. Qed.
Lemma cut_none : forall {A} j r, cut j (@nil A) = Some r -> False.
Proof. intros A [|j] r; cbn; discriminate. Qed.

Lemma inv_move : forall c m c', inv c -> allowed sid m -> do_move c m = Some c' -> inv c'.
Proof.
  intros c m c' ((ph & L & V) & U & D) A S. destruct c as [called user proc reg ptodo up down rtodo tasks runs].
  unfold view in V. cbn [s_called s_user s_proc s_reg s_ptodo s_up s_down s_rtodo s_tasks s_runs] in V, U, D.
  destruct m as [| | | | | |j|i o|bs|bs]; cbn [SoloModel.do_move] in S; cbn [allowed] in A.
  - (* Subscribe *) destruct ph; cbn [shape] in V; injection V as -> -> -> -> -> Vu Vd -> -> ->; try discriminate S. injection S as <-. split; [|split; assumption].
    exists A1. split; [exact I|]. unfold view. cbn [s_called s_user s_proc s_reg s_ptodo s_up s_down s_rtodo s_tasks s_runs]. rewrite Vu, Vd. reflexivity.
  - (* its steps *) destruct ph; cbn [shape] in V; injection V as -> -> -> -> -> Vu Vd -> -> ->; try discriminate S.
    + injection S as <-. split; [|split; assumption]. exists A2. split; [exact I|]. unfold view. cbn [s_called s_user s_proc s_reg s_ptodo s_up s_down s_rtodo s_tasks s_runs]. rewrite Vu, Vd. reflexivity.
    + injection S as <-. split; [|split; assumption]. exists A3. split; [exact I|]. unfold view. cbn [s_called s_user s_proc s_reg s_ptodo s_up s_down s_rtodo s_tasks s_runs]. rewrite Vu, Vd. reflexivity.
    + unfold SoloModel.post in S. change (solo_request sid data md) with (msg_frame (Req (sid, data, md))) in S. rewrite (msg_bytes _ ask_ok) in S. injection S as <-. fold ask.
      destruct ask_mine as [M P]. split; [|split; [apply snoc_parses; assumption|exact D]]. exists Asked. split; [exact I|]. unfold view. cbn [s_called s_user s_proc s_reg s_ptodo s_up s_down s_rtodo s_tasks s_runs]. rewrite filter_snoc_mine by exact M. rewrite Vu, Vd. reflexivity.
  - (* an answer is taken *) destruct ptodo as [|a ptodo]; [|discriminate S]. destruct down as [|bs rest]; [discriminate S|].
    inversion D as [|? ? Db Dr]; subst. cbn [filter] in V. destruct (mine bs) eqn:M.
    + destruct ph; cbn [shape] in V; try discriminate V.
      injection V as -> -> -> -> Vu -> Vd -> -> ->. destruct L as [O Q]. rewrite (recv_reply o O), own_deliver in S. injection S as <-.
      split; [|split; assumption]. exists (Back K o 3). split; [split; [split; assumption|constructor]|]. unfold view. cbn [s_called s_user s_proc s_reg s_ptodo s_up s_down s_rtodo s_tasks s_runs]. rewrite Vu, Vd. reflexivity.
    + assert (Fo := mine_foreign bs Db M). assert (N : exists c1, Some c' = Some c1 /\ view c1 = shape ph /\ Forall parses (s_up c1) /\ Forall parses (s_down c1)).
      { destruct (received wp tp reg bs) as [l|e|] eqn:R; try discriminate S; injection S as <-; eexists; (split; [reflexivity|]); unfold view; cbn [s_called s_user s_proc s_reg s_ptodo s_up s_down s_rtodo s_tasks s_runs].
        - rewrite (recv_foreign _ _ _ _ _ Fo R). split; [exact V|split; assumption].
        - split; [exact V|split; assumption]. }
      destruct N as (c1 & E & V1 & U1 & D1). injection E as ->. split; [exists ph; split; assumption|split; assumption].
  - (* and passed on *) destruct ph as [| | | | | | | |K o|K o n]; cbn [shape] in V; injection V as -> -> -> -> -> Vu Vd -> -> ->; try discriminate S.
    destruct L as [Q N]. destruct n as [|[|[|[|n]]]]; [| | | |lia].
    + destruct o as [[d m]|e]; discriminate S.
    + assert (S' : Some (mkS true [] (over o) false [] up down [] [] (the_runs K o)) = Some c') by (destruct o as [[d m]|e]; exact S).
      injection S' as <-. split; [|split; assumption]. exists (Back K o 0). split; [split; [exact Q|lia]|]. unfold view. cbn [s_called s_user s_proc s_reg s_ptodo s_up s_down s_rtodo s_tasks s_runs]. rewrite Vu, Vd. destruct o as [[d m]|e]; reflexivity.
    + assert (S' : Some (mkS true [] (over o) true [ARemove sid] up down [] [] (the_runs K o)) = Some c') by (destruct o as [[d m]|e]; exact S).
      injection S' as <-. split; [|split; assumption]. exists (Back K o 1). split; [split; [exact Q|lia]|]. unfold view. cbn [s_called s_user s_proc s_reg s_ptodo s_up s_down s_rtodo s_tasks s_runs]. rewrite Vu, Vd. destruct o as [[d m]|e]; reflexivity.
    + assert (S' : Some (mkS true [] (over o) true [ACall tt OnComplete; ARemove sid] up down [] [] (the_runs K o)) = Some c') by (destruct o as [[d m]|e]; exact S).
      injection S' as <-. split; [|split; assumption]. exists (Back K o 2). split; [split; [exact Q|lia]|]. unfold view. cbn [s_called s_user s_proc s_reg s_ptodo s_up s_down s_rtodo s_tasks s_runs]. rewrite Vu, Vd. destruct o as [[d m]|e]; reflexivity.
  - (* the request is taken *) destruct rtodo as [|a rtodo]; [|discriminate S]. destruct up as [|bs rest]; [discriminate S|].
    inversion U as [|? ? Ub Ur]; subst. cbn [filter] in V. destruct (mine bs) eqn:M.
    + destruct ph; cbn [shape] in V; try discriminate V.
      * injection V as -> -> -> -> -> -> Vu Vd -> ->. destruct (recv_ask false) as (K & Fa & E). rewrite E, own_duty in S. injection S as <-.
        split; [|split; assumption]. exists (Taken K). split; [exact Fa|]. unfold view. cbn [s_called s_user s_proc s_reg s_ptodo s_up s_down s_rtodo s_tasks s_runs]. rewrite Vu, Vd. reflexivity.
    + assert (Fo := mine_foreign bs Ub M). assert (N : exists c1, Some c' = Some c1 /\ view c1 = shape ph /\ Forall parses (s_up c1) /\ Forall parses (s_down c1)).
      { destruct (received wr tr false bs) as [l|e|] eqn:R; try discriminate S; injection S as <-; eexists; (split; [reflexivity|]); unfold view; cbn [s_called s_user s_proc s_reg s_ptodo s_up s_down s_rtodo s_tasks s_runs].
        - rewrite (recv_foreign _ _ _ _ _ Fo R). split; [exact V|split; assumption].
        - split; [exact V|split; assumption]. }
      destruct N as (c1 & E & V1 & U1 & D1). injection E as ->. split; [exists ph; split; assumption|split; assumption].
  - (* and passed to a goroutine *) destruct ph as [| | | | |K|K| | |K o n]; cbn [shape] in V; injection V as -> -> -> -> -> Vu Vd -> -> ->; try discriminate S.
    assert (S' : Some (mkS true [] subbed true [] up down [] [duty K] []) = Some c') by (destruct K as [[h p]|]; exact S). injection S' as <-.
    split; [|split; assumption]. exists (Started K). split; [exact L|]. unfold view. cbn [s_called s_user s_proc s_reg s_ptodo s_up s_down s_rtodo s_tasks s_runs]. rewrite Vu, Vd. reflexivity.
  - (* which goes on *) destruct (cut j tasks) as [[[l t] q]|] eqn:C; [|discriminate S].
    destruct ph as [| | | | |K|K| | |K o n]; cbn [shape] in V; injection V as -> -> -> -> -> Vu Vd -> -> ->; try (destruct (cut_none _ _ C)).
    apply cut_one in C. injection C as -> -> ->. cbn [app] in S. destruct K as [[h p]|]; cbn [duty] in S.
    + injection S as <-. split; [|split; assumption]. exists (Running h). split; [exact L|]. unfold view. cbn [s_called s_user s_proc s_reg s_ptodo s_up s_down s_rtodo s_tasks s_runs]. rewrite Vu, Vd. reflexivity.
    + unfold SoloModel.post in S. change (FramesModel.FError sid 0 refused) with (msg_frame (Rep (sid, inr refused))) in S. rewrite (msg_bytes _ (reply_ok _ refused_ok)) in S. injection S as <-. fold (reply (inr refused)).
      destruct (reply_mine _ refused_ok) as [M P]. split; [|split; [exact U|apply snoc_parses; assumption]]. exists (Answered None (inr refused)). split; [split; [exact refused_ok|split; [exact L|reflexivity]]|]. unfold view. cbn [s_called s_user s_proc s_reg s_ptodo s_up s_down s_rtodo s_tasks s_runs]. rewrite filter_snoc_mine by exact M. rewrite Vu, Vd. reflexivity.
  - (* the handler's mono concludes *) destruct (cut i runs) as [[[l r] q]|] eqn:C; [|discriminate S].
    destruct ph as [| | | | |K|K|h|K o1|K o1 n]; cbn [shape] in V; injection V as -> -> -> -> -> Vu Vd -> -> ->; try (destruct (cut_none _ _ C)).
    + apply cut_one in C. injection C as -> -> ->. unfold the_run in S. cbn [app] in S. unfold SoloModel.post in S. change (answer_of sid o) with (msg_frame (Rep (sid, o))) in S. rewrite (msg_bytes _ (reply_ok _ A)) in S. injection S as <-. fold (reply o).
      destruct (reply_mine _ A) as [M P]. split; [|split; [exact U|apply snoc_parses; assumption]]. exists (Answered (Some h) o). split; [split; [exact A|exact L]|]. unfold view. cbn [s_called s_user s_proc s_reg s_ptodo s_up s_down s_rtodo s_tasks s_runs]. rewrite filter_snoc_mine by exact M. rewrite Vu, Vd. reflexivity.
    + destruct K as [h|]; cbn [the_runs] in C; [|destruct (cut_none _ _ C)]. apply cut_one in C. injection C as -> -> ->. discriminate S.
    + destruct K as [h|]; cbn [the_runs] in C; [|destruct (cut_none _ _ C)]. apply cut_one in C. injection C as -> -> ->. discriminate S.
  - injection S as <-. destruct (foreign_mine bs A) as [M P]. split; [|split; [apply snoc_parses; assumption|exact D]]. exists ph. split; [exact L|]. unfold view. cbn [s_called s_user s_proc s_reg s_ptodo s_up s_down s_rtodo s_tasks s_runs]. rewrite filter_snoc_other by exact M. exact V.
  - injection S as <-. destruct (foreign_mine bs A) as [M P]. split; [|split; [exact U|apply snoc_parses; assumption]]. exists ph. split; [exact L|]. unfold view. cbn [s_called s_user s_proc s_reg s_ptodo s_up s_down s_rtodo s_tasks s_runs]. rewrite filter_snoc_other by exact M. exact V.
Qed.
Lemma reach_inv : forall c, reach wp wr tp tr sid data md c -> inv c.
Proof. intros c R. induction R as [|c m c' R IH A S]; [apply inv_init|exact (inv_move _ _ _ IH A S)]. Qed.

(** ** What the phases say *)
Lemma runs_of : forall c, inv c -> s_runs c = [] \/ exists r, s_runs c = [r] /\ run_for wr tr sid data md r.
Proof.
  intros c ((ph & L & V) & _). apply (f_equal l_runs) in V. cbn [view l_runs] in V. rewrite V.
  assert (G : forall h o, names tr RR md h -> run_for wr tr sid data md (the_run h o)) by (intros h o N; split; [reflexivity|]; split; [exact N|]; split; reflexivity).
  destruct ph as [| | | | |K|K|h|K o|K o n]; cbn [shape l_runs]; cbn [legal] in L; try (left; reflexivity).
  - right. eexists. split; [reflexivity|apply G; exact L].
  - destruct K as [h|]; cbn [the_runs]; [right|left; reflexivity]. eexists. split; [reflexivity|apply G; apply L].
  - destruct K as [h|]; cbn [the_runs]; [right|left; reflexivity]. eexists. split; [reflexivity|apply G; apply L].
Qed.
Lemma fit_outcome : forall c K o, fit K o -> s_runs c = the_runs K o -> outcome_for wr tr sid data md c o.
Proof.
  intros c K o [_ F] E. unfold outcome_for. rewrite E. destruct K as [h|]; cbn [the_runs].
  - left. eexists. split; [reflexivity|]. split; [|reflexivity]. split; [reflexivity|]. split; [exact F|]. split; reflexivity.
  - right. split; [reflexivity|]. exact F.
Qed.
Lemma results_of : forall c, inv c -> results c = [] \/ exists o, results c = [o] /\ outcome_for wr tr sid data md c o.
Proof.
  intros c ((ph & L & V) & _). assert (P := f_equal l_proc V). assert (R := f_equal l_runs V). cbn [view l_proc l_runs] in P, R. unfold results. rewrite P.
  destruct ph as [| | | | |K|K|h|K o|K o n]; cbn [shape l_proc]; try (left; reflexivity). destruct L as [F N]. destruct n as [|[|[|[|n]]]]; [| | | |lia]; try (left; reflexivity);
  right; exists o; (split; [reflexivity|exact (fit_outcome _ _ _ F R)]).
Qed.
Lemma rest_of : forall c, inv c -> at_rest c ->
  if s_called c then s_reg c = false /\ exists o, results c = [o] /\ outcome_for wr tr sid data md c o else s_reg c = false /\ results c = [] /\ s_runs c = [].
Proof.
  intros c ((ph & L & V) & _) (Q1 & Q2 & Q3 & Q4 & Q5 & Q6 & Q7). unfold view in V. rewrite Q1, Q2, Q3, Q4, Q5, Q6 in V. cbn [filter] in V.
  destruct ph as [| | | | |K|K|h|K o|K o n]; cbn [shape] in V; try discriminate V.
  - injection V as E1 E2 E3 E4. rewrite E1. unfold results. rewrite E2. split; [exact E3|]. split; [reflexivity|exact E4].
  - injection V as E1 E2 E3 E4. rewrite E4 in Q7. inversion Q7 as [|? ? X _]. exfalso. apply X. reflexivity.
  - destruct L as [F N]. assert (n = 0%nat) by (destruct n as [|[|[|[|n]]]]; [reflexivity| | | |lia]; exfalso; destruct o as [[d m]|e]; discriminate V). subst n. injection V as E1 E2 E3 E4 E5. rewrite E1. split; [exact E3|]. exists o. split; [unfold results; rewrite E2; reflexivity|exact (fit_outcome _ _ _ F E5)].
Qed.

(** ** Nothing stops *)
Context (Few' : DispatchSpec.few tp).
Lemma recv_total : forall w tbl reg bs, DispatchSpec.few tbl -> parses bs -> mine bs = false -> received w tbl reg bs <> Panic.
Proof.
  intros w tbl reg bs F ((f & P) & W) M X. destruct W as [W|W]; [congruence|]. assert (Ns : frame_sid f <> sid) by (unfold SoloSpec.mine in M; rewrite P in M; apply N.eqb_neq; exact M).
  assert (G : StreamModel.look sid reg (frame_sid f) = None) by (apply StreamWire.look_other; exact Ns).
  assert (Q : forall w0, recv_one tbl (StreamModel.look sid reg) (fun _ => SMono) w0 bs <> Panic).
  { intros w0 Y. apply (recv_ok tbl _ _ w0 bs F W) in Y. destruct (parse_form bs f P) as (L & _). destruct Y as [Y|[[Y _]|(f' & s & Y & Z & _)]]; [lia|congruence|]. assert (f' = f) by congruence. subst f'. congruence. }
  destruct w; cbn [SoloModel.received] in X; [|exact (Q _ X)|exact (Q _ X)]. rewrite P in X. destruct (is_request f) eqn:R.
  - apply (peer_panic tbl (StreamModel.look sid reg) (fun _ => SMono) f F) in X.
    + destruct X as (s & Y & _). congruence.
    + destruct f as [| | | |r]; try discriminate R. exact (parsed_wf bs r W P).
    + intros _. destruct f as [| | | |r]; try discriminate R. destruct (parse_form bs _ P) as (_ & _ & _ & k & K). cbn [frame_type]. rewrite K. destruct k; reflexivity.
  - rewrite (peer_unknown tbl (StreamModel.look sid reg) (fun _ => SMono) f R G) in X. destruct f; discriminate X.
Qed.
Lemma load_cons : forall n bs l, load sid n (bs :: l) = ((if mine bs then n else 1) + load sid n l)%nat.
Proof. reflexivity. Qed.
Lemma load_app : forall n a b, load sid n (a ++ b) = (load sid n a + load sid n b)%nat.
Proof. intros n a b. unfold load. rewrite map_app. induction a as [|x a IH]; [reflexivity|]. cbn [app map list_sum fold_right] in *. unfold list_sum in *. cbn [fold_right map app]. lia. Qed.

Ltac fields := unfold SoloSpec.work; cbn [s_called s_user s_proc s_reg s_ptodo s_up s_down s_rtodo s_tasks s_runs length app filter r_out the_run].
Lemma move_works : forall c m c', inv c -> allowed sid m -> inner m = true -> do_move c m = Some c' -> (work sid c' < work sid c)%nat.
Proof.
  intros c m c' ((ph & L & V) & U & D) A Im S. destruct c as [called user proc reg ptodo up down rtodo tasks runs].
  unfold view in V. cbn [s_called s_user s_proc s_reg s_ptodo s_up s_down s_rtodo s_tasks s_runs] in V, U, D.
  destruct m as [| | | | | |j|i o|bs|bs]; try discriminate Im; cbn [SoloModel.do_move] in S; cbn [allowed] in A.
  - destruct user as [|[| |] l]; try discriminate S.
    + injection S as <-. fields. lia.
    + injection S as <-. fields. lia.
    + unfold SoloModel.post in S. change (solo_request sid data md) with (msg_frame (Req (sid, data, md))) in S. rewrite (msg_bytes _ ask_ok) in S. injection S as <-. fold ask. fields. rewrite load_app, load_cons, (proj1 ask_mine). cbn [load map list_sum fold_right]. unfold load. cbn [map list_sum fold_right]. lia.
  - destruct ptodo as [|a ptodo]; [|discriminate S]. destruct down as [|bs rest]; [discriminate S|].
    inversion D as [|? ? Db Dr]; subst. cbn [filter] in V. destruct (mine bs) eqn:M.
    + destruct ph; cbn [shape] in V; try discriminate V.
      injection V as -> -> -> -> Vu -> Vd -> -> ->. destruct L as [O Q]. rewrite (recv_reply o O), own_deliver in S. injection S as <-. fields. rewrite load_cons, M. assert (N : length (deliver o) = 3%nat) by (destruct o as [[d m]|e]; reflexivity). rewrite N. lia.
    + assert (Fo := mine_foreign bs Db M). destruct (received wp tp reg bs) as [l|e|] eqn:R; try discriminate S; injection S as <-; fields; rewrite load_cons, M; [rewrite (recv_foreign _ _ _ _ _ Fo R); cbn [length]|]; lia.
  - destruct ptodo as [|[f|i|i| |i [d m'| |e|n]|] l]; try discriminate S; injection S as <-; fields; lia.
  - destruct rtodo as [|a rtodo]; [|discriminate S]. destruct up as [|bs rest]; [discriminate S|].
    inversion U as [|? ? Ub Ur]; subst. cbn [filter] in V. destruct (mine bs) eqn:M.
    + destruct ph; cbn [shape] in V; try discriminate V.
      injection V as -> -> -> -> -> -> Vu Vd -> ->. destruct (recv_ask false) as (K & Fa & E). rewrite E, own_duty in S. injection S as <-. fields. rewrite load_cons, M. lia.
    + assert (Fo := mine_foreign bs Ub M). destruct (received wr tr false bs) as [l|e|] eqn:R; try discriminate S; injection S as <-; fields; rewrite load_cons, M; [rewrite (recv_foreign _ _ _ _ _ Fo R); cbn [length]|]; lia.
  - assert (exists a l, rtodo = a :: l /\ c' = mkS called user proc reg ptodo up down l (tasks ++ [a]) runs) as (a & l & -> & ->).
    { destruct rtodo as [|a l]; [discriminate S|]. exists a, l. split; [reflexivity|]. destruct a as [f|r|i|k h i d m p n|i q|i]; try discriminate S; [injection S as <-; reflexivity|]. destruct k; try discriminate S. injection S as <-. reflexivity. }
    fields. rewrite app_length. cbn [length]. lia.
  - destruct (cut j tasks) as [[[l t] q]|] eqn:C; [|discriminate S].
    destruct ph as [| | | | |K|K| | |K o n]; cbn [shape] in V; injection V as -> -> -> -> -> Vu Vd -> -> ->; try (destruct (cut_none _ _ C)).
    apply cut_one in C. injection C as -> -> ->. cbn [app] in S. destruct K as [[h p]|]; cbn [duty] in S.
    + injection S as <-. fields. lia.
    + unfold SoloModel.post in S. change (FramesModel.FError sid 0 refused) with (msg_frame (Rep (sid, inr refused))) in S. rewrite (msg_bytes _ (reply_ok _ refused_ok)) in S. injection S as <-. fold (reply (inr refused)). fields. rewrite load_app, load_cons, (proj1 (reply_mine _ refused_ok)). unfold load. cbn [map list_sum fold_right]. lia.
  - destruct (cut i runs) as [[[l r] q]|] eqn:C; [|discriminate S].
    destruct ph as [| | | | |K|K|h|K o1|K o1 n]; cbn [shape] in V; injection V as -> -> -> -> -> Vu Vd -> -> ->; try (destruct (cut_none _ _ C)).
    + apply cut_one in C. injection C as -> -> ->. unfold the_run in S. cbn [app] in S. unfold SoloModel.post in S. change (answer_of sid o) with (msg_frame (Rep (sid, o))) in S. rewrite (msg_bytes _ (reply_ok _ A)) in S. injection S as <-. fold (reply o). fields. rewrite load_app, load_cons, (proj1 (reply_mine _ A)). unfold load. cbn [map list_sum fold_right]. lia.
    + destruct K as [h|]; cbn [the_runs] in C; [|destruct (cut_none _ _ C)]. apply cut_one in C. injection C as -> -> ->. discriminate S.
    + destruct K as [h|]; cbn [the_runs] in C; [|destruct (cut_none _ _ C)]. apply cut_one in C. injection C as -> -> ->. discriminate S.
Qed.

Lemma progress : forall c, inv c -> at_rest c \/ exists m c', inner m = true /\ allowed sid m /\ do_move c m = Some c'.
Proof.
  intros c ((ph & L & V) & U & D). destruct c as [called user proc reg ptodo up down rtodo tasks runs].
  unfold view in V. cbn [s_called s_user s_proc s_reg s_ptodo s_up s_down s_rtodo s_tasks s_runs] in V, U, D.
  assert (Pr : (forall bs rest, ptodo = [] -> down = bs :: rest -> (mine bs = true -> exists o, reg = true /\ sendable_out o /\ bs = reply o) -> exists c', do_move (mkS called user proc reg ptodo up down rtodo tasks runs) SPRecv = Some c')).
  { intros bs rest -> -> G. cbn [SoloModel.do_move]. inversion D as [|? ? Db Dr]; subst. destruct (mine bs) eqn:M.
    - destruct (G eq_refl) as (o & -> & O & ->). rewrite (recv_reply o O). eexists. reflexivity.
    - assert (T := recv_total wp tp reg bs Few' Db M). destruct (received wp tp reg bs); [| |congruence]; eexists; reflexivity. }
  assert (Rr : (forall bs rest, rtodo = [] -> up = bs :: rest -> (mine bs = true -> bs = ask) -> exists c', do_move (mkS called user proc reg ptodo up down rtodo tasks runs) SRRecv = Some c')).
  { intros bs rest -> -> G. cbn [SoloModel.do_move]. inversion U as [|? ? Ub Ur]; subst. destruct (mine bs) eqn:M.
    - rewrite (G eq_refl). destruct (recv_ask false) as (K & _ & ->). eexists. reflexivity.
    - assert (T := recv_total wr tr false bs Few Ub M). destruct (received wr tr false bs); [| |congruence]; eexists; reflexivity. }
  destruct up as [|bu up].
  2: { destruct rtodo as [|a rtodo].
       - right. destruct (Rr bu up eq_refl eq_refl) as (c' & E); [|exists SRRecv, c'; split; [reflexivity|]; split; [exact I|exact E]].
         intro M. cbn [filter] in V. rewrite M in V. destruct ph; cbn [shape] in V; try discriminate V. injection V. intros. subst. reflexivity.
       - right. destruct ph as [| | | | |K|K|h|K o|K o n]; cbn [shape] in V; try discriminate V. injection V as -> -> -> -> -> Vu Vd Va Vr Vt Vs. subst a. subst. exists SRAct. cbn [SoloModel.do_move]. destruct K as [[h p]|]; cbn [duty]; eexists; (split; [reflexivity|]; split; [exact I|reflexivity]). }
  destruct down as [|bd down].
  2: { destruct ptodo as [|a ptodo].
       - right. destruct (Pr bd down eq_refl eq_refl) as (c' & E); [|exists SPRecv, c'; split; [reflexivity|]; split; [exact I|exact E]].
         intro M. cbn [filter] in V. rewrite M in V. destruct ph as [| | | | |K|K|h|K o|K o n]; cbn [shape] in V; try discriminate V. injection V. intros. subst. exists o. split; [reflexivity|]. split; [apply L|reflexivity].
       - right. destruct ph as [| | | | |K|K|h|K o|K o n]; cbn [shape] in V; try discriminate V. injection V as -> -> -> -> Vp Vd -> -> ->. rewrite Vp. exists SPAct. destruct L as [_ N].
         destruct n as [|[|[|[|n]]]]; [destruct o as [[d m]|e]; discriminate Vp| | | |lia]; destruct o as [[d m]|e]; eexists; (split; [reflexivity|]; split; [exact I|reflexivity]). }
  cbn [filter] in V. destruct ph as [| | | | |K|K|h|K o|K o n]; cbn [shape] in V; try discriminate V; injection V as -> -> -> -> -> -> -> ->.
  - left. repeat (split; [reflexivity|]). constructor.
  - right. exists SUser. eexists. split; [reflexivity|]. split; [exact I|reflexivity].
  - right. exists SUser. eexists. split; [reflexivity|]. split; [exact I|reflexivity].
  - right. exists SUser. cbn [SoloModel.do_move]. unfold SoloModel.post. change (solo_request sid data md) with (msg_frame (Req (sid, data, md))). rewrite (msg_bytes _ ask_ok). eexists. split; [reflexivity|]. split; [exact I|reflexivity].
  - right. exists SRAct. cbn [SoloModel.do_move]. destruct K as [[h p]|]; cbn [duty]; eexists; (split; [reflexivity|]; split; [exact I|reflexivity]).
  - right. exists (STask 0). cbn [SoloModel.do_move cut nth_error]. destruct K as [[h p]|]; cbn [duty].
    + eexists. split; [reflexivity|]. split; [exact I|reflexivity].
    + unfold SoloModel.post. change (FramesModel.FError sid 0 refused) with (msg_frame (Rep (sid, inr refused))). rewrite (msg_bytes _ (reply_ok _ refused_ok)). eexists. split; [reflexivity|]. split; [exact I|reflexivity].
  - right. exists (SConclude 0 (inr [])). cbn [SoloModel.do_move cut nth_error]. unfold the_run. unfold SoloModel.post. assert (O : sendable_out (inr [])) by reflexivity. change (answer_of sid (inr [])) with (msg_frame (Rep (sid, inr []))). rewrite (msg_bytes _ (reply_ok _ O)). eexists. split; [reflexivity|]. split; [exact O|reflexivity].
  - destruct L as [Q N]. destruct n as [|[|[|[|n]]]]; [|right|right|right|lia].
    + left. repeat split; try (destruct o as [[d m]|e]; reflexivity). cbn [s_runs]. destruct K as [h|]; cbn [the_runs]; [constructor; [discriminate|constructor]|constructor].
    + exists SPAct. destruct o as [[d m]|e]; eexists; (split; [reflexivity|]; split; [exact I|reflexivity]).
    + exists SPAct. destruct o as [[d m]|e]; eexists; (split; [reflexivity|]; split; [exact I|reflexivity]).
    + exists SPAct. destruct o as [[d m]|e]; eexists; (split; [reflexivity|]; split; [exact I|reflexivity]).
Qed.
End Proofs.
