(** Proofs about a streaming call that a Rust guest serves. *)
From Coq Require Import List NArith ZArith Lia Bool ZifyBool ZifyNat ZifyN.
From Verif Require Import Base BaseLemmas FramesModel FramesSpec FramesProofs InvokeModel MonoModel FluxModel FluxSpec ProxyModel ProxySpec DispatchModel DispatchSpec ResponderModel ResponderSpec ResponderProofs.
From Verif Require Import RustFramesModel RustFramesSpec RustFramesProofs StreamModel StreamSpec StreamSides StreamWire StreamInv RustStreamModel RustStreamSpec.
From Verif Require CallModel CallSpec ProxyProofs StreamProofs RustCallModel RustCallProofs.
Import ListNotations.
Open Scope N_scope.

Section Half.
Context {H : Type}.
Context (sp : bool) (g : fcfg) (sid : N) (data md : bytes).
Context (Sid : sid < 2^31) (Snd : CallSpec.sendable data md).
Notation req := (stream_request sid data md).
Notation pstep := (pstep sp g req false).
Notation kinv := (kinv g).
Notation up_frame := (up_frame sid data md).
Notation good := (good sid).
Notation act := (act H unit).

(** ** The requester's half *)
Record hinv (p : pst) (pths : list (list pitem)) (ptr : list pevent) (ptodo : list act) (preg : bool) (up dn : line) (gone : list frame) : Prop := {
  h_k : kinv p pths ptr;
  h_p : preach sp g req false p pths ptr;
  h_early : f_sub (p_fl p) = false -> forallb (forallb early) pths = true;
  h_disp : exists cs rem, ptodo = map (ACall tt) cs ++ (if rem : bool then [ARemove sid] else []) /\ nets ptr ++ head_nets pths ++ flat_map netc cs = effects gone /\
           preg = f_sub (p_fl p) && (negb (ended gone) || rem) /\ (rem = true -> ended gone = true);
  h_up : strangers sid up /\ Forall up_frame (ours up);
  h_dn : strangers sid dn /\ Forall (fun f => good f /\ is_answer f = true) (ours dn);
  h_dorm : f_sub (p_fl p) = false -> ours up = [] /\ ours dn = [] /\ gone = [] /\ ptodo = [] /\ psent ptr = [] }.

Lemma h_init : forall n, hinv proxy_create (repeat [PI FUser] (S n)) [] [] false [] [] [].
Proof.
  intro n. constructor.
  - apply kinv_init.
  - apply (p_init sp g req false (S n)).
  - intros _. induction (S n); [reflexivity|assumption].
  - exists [], false. repeat split; discriminate.
  - split; constructor.
  - split; constructor.
  - repeat split.
Qed.
Lemma h_call : forall p l stack rest ptr ptodo preg up dn gone f, hinv p (l ++ (PI FUser :: stack) :: rest) ptr ptodo preg up dn gone -> pcalls f = true ->
  hinv p (l ++ (PI (FDo f) :: PI FUser :: stack) :: rest) ptr ptodo preg up dn gone.
Proof.
  intros p l stack rest ptr ptodo preg up dn gone f [] P. destruct (pcalls_side f P) as [Ps Pe]. constructor; try assumption.
  - apply kinv_call; assumption.
  - apply p_call; assumption.
  - intro F. destruct (early_split _ _ _ (h_early0 F)) as (A & B & C). rewrite forallb_app. cbn [forallb]. rewrite A, Pe, C. cbn [forallb] in B. rewrite B. reflexivity.
  - replace (head_nets (l ++ (PI (FDo f) :: PI FUser :: stack) :: rest)) with (head_nets (l ++ (PI FUser :: stack) :: rest)) by (destruct l; reflexivity). assumption.
Qed.
Lemma h_return : forall p l it stack rest ptr ptodo preg up dn gone, hinv p (l ++ (PI FUser :: it :: stack) :: rest) ptr ptodo preg up dn gone ->
  hinv p (l ++ (it :: stack) :: rest) ptr ptodo preg up dn gone.
Proof.
  intros p l it stack rest ptr ptodo preg up dn gone []. constructor; try assumption.
  - apply kinv_return; assumption.
  - apply p_return; [assumption|discriminate].
  - intro F. destruct (early_split _ _ _ (h_early0 F)) as (A & B & C). rewrite forallb_app. cbn [forallb] in *. cbn [early andb] in B. rewrite A, C, B. reflexivity.
  - replace (head_nets (l ++ (it :: stack) :: rest)) with (head_nets (l ++ (PI FUser :: it :: stack) :: rest)); [assumption|]. destruct l as [|x l]; [|reflexivity]. cbn [app]. destruct h_k0 as [(d & us & E & U & S & _)]. cbn [app] in E. injection E as <- <-.
    destruct S as [S|(it' & t & S & Sh & _)]; [|injection S as <- <-; discriminate Sh]. cbn [forallb] in S. rewrite (head_clean (it :: stack)) by (cbn [forallb]; rewrite !andb_true_iff in *; tauto). reflexivity.
Qed.
Lemma h_step : forall p l it stack rest ptr ptodo preg up dn gone st' its new evs,
  hinv p (l ++ (it :: stack) :: rest) ptr ptodo preg up dn gone -> pstep p it = Some (st', its, new, evs) ->
  Forall good (psent evs) /\ hinv st' (l ++ (its ++ stack) :: rest ++ new) (ptr ++ evs) ptodo (registers_now evs || preg) (up ++ map inl (psent evs)) dn gone.
Proof.
  intros p l it stack rest ptr ptodo preg up dn gone st' its new evs [] X.
  destruct (any_step sp g sid data md _ _ _ _ _ _ X (kinv_item _ _ _ _ _ _ _ h_k0)) as [Fu Fs]. destruct (step_no_net _ _ _ _ _ _ _ _ _ _ _ X) as [Nn Ne].
  split; [eapply Forall_impl; [|exact Fu]; intros f; apply up_good; assumption|]. constructor; try assumption.
  - eapply kinv_step; [exact h_k0|exact X|]. intros [n ->]. destruct (f_sub (p_fl p)) eqn:Fp; [reflexivity|]. destruct (early_split _ _ _ (h_early0 eq_refl)) as (_ & B & _). discriminate B.
  - eapply p_step; eassumption.
  - intro F. rewrite Fs in F. apply orb_false_iff in F. destruct F as [F1 F2]. destruct (early_split _ _ _ (h_early0 F1)) as (A & B & C). cbn [forallb] in B. apply andb_true_iff in B. destruct B as [B1 B2].
    destruct (early_step sp g sid data md _ _ _ _ _ _ B1 F1 X) as [Z|(_ & -> & -> & _)]; [rewrite Fs, F1, F2 in Z; discriminate Z|]. cbn [app]. rewrite app_nil_r, forallb_app. cbn [forallb]. rewrite A, B2, C. reflexivity.
  - destruct h_disp0 as (cs & rem & T & E & R & M). exists cs, rem. split; [exact T|]. destruct (head_step _ _ _ _ l it stack rest its new h_k0 eq_refl Nn) as [Hd _]. split; [|split; [|exact M]].
    + rewrite nets_app, Ne, <- E, Hd, <- !app_assoc. reflexivity.
    + rewrite R, Fs. destruct (registers_now evs) eqn:Rg; [|rewrite orb_false_r; reflexivity]. destruct (first_step sp g sid data md _ _ _ _ _ _ X Rg) as [_ F0]. destruct (h_dorm0 F0) as (_ & _ & -> & _). rewrite F0. reflexivity.
  - destruct h_up0 as [A B]. split; [apply strangers_inl; exact A|]. rewrite ours_app, ours_inl. apply Forall_app. split; assumption.
  - intro F. rewrite Fs in F. apply orb_false_iff in F. destruct F as [F1 F2]. destruct (early_split _ _ _ (h_early0 F1)) as (A & B & C). cbn [forallb] in B. apply andb_true_iff in B. destruct B as [B1 B2].
    destruct (early_step sp g sid data md _ _ _ _ _ _ B1 F1 X) as [Z|(_ & _ & _ & E & _)]; [rewrite Fs, F1, F2 in Z; discriminate Z|]. rewrite psent_app, E, ours_app, ours_inl, !app_nil_r. exact (h_dorm0 F1).
Qed.
Lemma h_recv : forall p pths ptr preg up f dn gone, hinv p pths ptr [] preg up (inl f :: dn) gone -> head_nets pths = [] ->
  (good f /\ is_answer f = true) /\ hinv p pths ptr (if preg then doing sid f else []) preg up dn (gone ++ [f]).
Proof.
  intros p pths ptr preg up f dn gone [] Hn. destruct h_dn0 as [A B]. cbn [ours flat_map app] in *. fold (ours dn) in *.
  split; [inversion B; assumption|]. constructor; try assumption.
  - destruct h_disp0 as (cs & rem & T & E & R & M). assert (cs = [] /\ rem = false) as [-> ->].
    { destruct cs; [|discriminate T]. destruct rem; [discriminate T|]. split; reflexivity. }
    cbn [flat_map] in E. rewrite app_nil_r in E. rewrite orb_false_r in R. destruct (f_sub (p_fl p)) eqn:Fp; [|destruct (h_dorm0 eq_refl) as (_ & Z & _); discriminate Z].
    cbn [andb] in R. destruct (ended gone) eqn:Eg; subst preg.
    + exists [], false. split; [reflexivity|]. cbn [negb]. split; [cbn [flat_map]; rewrite app_nil_r, E, effects_app, Eg, app_nil_r; reflexivity|]. split; [rewrite ended_app, Eg; reflexivity|discriminate].
    + cbn [negb]. exists (asks f), (ends_stream f). split; [reflexivity|]. split; [rewrite app_assoc, E, effects_app, Eg; f_equal; unfold effects, fx; destruct (ends_stream f); rewrite app_nil_r; reflexivity|].
      split; [rewrite ended_app, Eg; cbn [ended existsb orb]; rewrite orb_false_r; destruct (ends_stream f); reflexivity|]. intro Z. rewrite ended_app. cbn [ended existsb]. rewrite Z. rewrite orb_true_r. reflexivity.
  - split; [inversion A; assumption|inversion B; assumption].
  - intro Z. destruct (h_dorm0 Z) as (_ & Y & _). discriminate Y.
Qed.
Lemma h_skip : forall p pths ptr ptodo preg up b dn gone, hinv p pths ptr ptodo preg up (inr b :: dn) gone -> foreign sid b /\ hinv p pths ptr ptodo preg up dn gone.
Proof. intros p pths ptr ptodo preg up b dn gone []. destruct h_dn0 as [A B]. split; [inversion A; assumption|]. constructor; try assumption. split; [inversion A; assumption|exact B]. Qed.
Lemma h_act_call : forall p rest ptr s f n todo preg up dn gone, hinv p ([PI FUser] :: rest) ptr (ACall s f :: todo) preg up dn gone -> net_call f = Some n ->
  hinv p ([PNetDo n; PI FUser] :: rest) ptr todo preg up dn gone.
Proof.
  intros p rest ptr s f n todo preg up dn gone [] Nc. constructor; try assumption.
  - apply kinv_net. exact h_k0.
  - apply (p_call sp g req false p [] [] rest ptr (PNetDo n)); [exact h_p0|reflexivity].
  - intro F. destruct (h_dorm0 F) as (_ & _ & _ & Z & _). discriminate Z.
  - destruct h_disp0 as (cs & rem & T & E & R & M). destruct cs as [|c cs]; [destruct rem; discriminate T|]. cbn [map app] in T. injection T as _ <- ->. exists cs, rem. split; [reflexivity|]. split; [|split; assumption].
    rewrite <- E. cbn [head_nets flat_map app]. unfold netc at 2. rewrite Nc. reflexivity.
  - intro F. destruct (h_dorm0 F) as (_ & _ & _ & Z & _). discriminate Z.
Qed.
Lemma h_act_remove : forall p rest ptr i todo preg up dn gone, hinv p ([PI FUser] :: rest) ptr (ARemove i :: todo) preg up dn gone -> hinv p ([PI FUser] :: rest) ptr todo false up dn gone.
Proof.
  intros p rest ptr i todo preg up dn gone []. constructor; try assumption.
  - destruct h_disp0 as (cs & rem & T & E & R & M). destruct cs as [|c cs]; [|discriminate T]. destruct rem; [|discriminate T]. injection T as -> ->. exists [], false. split; [reflexivity|]. split; [exact E|]. split; [|discriminate]. rewrite (M eq_refl), andb_false_r. reflexivity.
  - intro F. destruct (h_dorm0 F) as (_ & _ & _ & Z & _). discriminate Z.
Qed.
(** The other side takes a frame, and answers. *)
Lemma h_taken : forall p pths ptr ptodo preg x up dn gone, hinv p pths ptr ptodo preg (x :: up) dn gone -> hinv p pths ptr ptodo preg up dn gone.
Proof.
  intros p pths ptr ptodo preg x up dn gone []. constructor; try assumption.
  - destruct h_up0 as [A B]. split; [inversion A; assumption|]. destruct x; cbn [ours flat_map app] in B; [inversion B; assumption|exact B].
  - intro F. destruct (h_dorm0 F) as (A & B). split; [|exact B]. destruct x; cbn [ours flat_map app] in A; [discriminate A|exact A].
Qed.
Lemma h_answer : forall p pths ptr ptodo preg up dn gone l, hinv p pths ptr ptodo preg up dn gone -> Forall (fun f => good f /\ is_answer f = true) l -> (l <> [] -> psent ptr <> []) ->
  hinv p pths ptr ptodo preg up (dn ++ map inl l) gone.
Proof.
  intros p pths ptr ptodo preg up dn gone l [] F P. constructor; try assumption.
  - destruct h_dn0 as [A B]. split; [apply strangers_inl; exact A|]. rewrite ours_app, ours_inl. apply Forall_app. split; assumption.
  - intro Z. destruct (h_dorm0 Z) as (A & B & C & D & E). rewrite ours_app, ours_inl, B. repeat split; try assumption. destruct l; [reflexivity|]. exfalso. apply P; [discriminate|exact E].
Qed.
Lemma h_other_up : forall p pths ptr ptodo preg up dn gone b, hinv p pths ptr ptodo preg up dn gone -> foreign sid b -> hinv p pths ptr ptodo preg (up ++ [inr b]) dn gone.
Proof. intros p pths ptr ptodo preg up dn gone b [] F. constructor; try assumption; rewrite ours_app; cbn [ours flat_map]; rewrite app_nil_r; try assumption. destruct h_up0. split; [apply strangers_inr|]; assumption. Qed.
Lemma h_other_down : forall p pths ptr ptodo preg up dn gone b, hinv p pths ptr ptodo preg up dn gone -> foreign sid b -> hinv p pths ptr ptodo preg up (dn ++ [inr b]) gone.
Proof. intros p pths ptr ptodo preg up dn gone b [] F. constructor; try assumption; rewrite ours_app; cbn [ours flat_map]; rewrite app_nil_r; try assumption. destruct h_dn0. split; [apply strangers_inr|]; assumption. Qed.
End Half.

(** ** What the guest says *)
Section Guest.
Context {Hg Hr : Type}.
Context (w : site) (go_tbl : ikind -> list (option Hg)) (sp : bool) (g : fcfg) (tbl : list Hr) (sid : N) (data md : bytes).
Context (Sid : sid < 2^31) (Snd : CallSpec.sendable data md) (Wd : wf data).
Notation req := (stream_request sid data md).
Notation rconf := (rconf Hg Hr).
Notation good := (good sid).
Notation up_frame := (up_frame sid data md).
Notation hinv := (@hinv Hg sp g sid data md).

Definition frame_of (s : saying) : frame := go_view (says_frame sid s).
Definition fit_saying (s : saying) : Prop := match s with Told s => sendable_call (as_call s) | _ => True end.
Lemma frame_of_good : forall s, fit_saying s -> good (frame_of s) /\ is_answer (frame_of s) = true.
Proof.
  intros [[[d m]|e| ]| |n] F; cbn [fit_saying as_call sendable_call] in F; (split; [|reflexivity]); unfold frame_of; cbn [says_frame new_payload new_error rpayload_from_payload go_view].
  - destruct F as [L F]. split; [split; [exact Sid|exact F]|]. split; [exact L|reflexivity].
  - split; [split; [exact Sid|]; split; [reflexivity|exact F]|]. split; reflexivity.
  - split; [split; [exact Sid|reflexivity]|]. split; reflexivity.
  - split; [split; [exact Sid|reflexivity]|]. split; reflexivity.
  - split; [split; [exact Sid|]; split; [reflexivity|]|split; reflexivity]. unfold complaint. destruct (n =? 0); reflexivity.
Qed.
Lemma say_ok : forall l down, Forall fit_saying l -> say sid down l = Some (down ++ map wire (map frame_of l)).
Proof.
  intros l down F. unfold say. assert (E : RustCallModel.encode_all (map (says_frame sid) l) = Some (map wire (map frame_of l))); [|rewrite E; reflexivity].
  induction F as [|s l Fs Fl IH]; [reflexivity|]. cbn [map RustCallModel.encode_all]. rewrite (rframe_encode_wire _ (proj1 (proj1 (frame_of_good s Fs)))), IH. reflexivity.
Qed.
Lemma frames_good : forall l, Forall fit_saying l -> Forall (fun f => good f /\ is_answer f = true) (map frame_of l).
Proof. intros l F. induction F as [|s l Fs Fl IH]; [constructor|]. cbn [map]. constructor; [apply frame_of_good; exact Fs|exact IH]. Qed.
Lemma effects_said : forall l, expected g (map fc (effects (map frame_of l))) = expected g (as_calls l).
Proof.
  induction l as [|s l IH]; [reflexivity|]. destruct s as [[[d m]|e| ]| |n]; try reflexivity. unfold expected in *.
  cbn [map effects frame_of says_frame new_payload rpayload_from_payload go_view fx asks]. cbn -[upto as_calls effects frame_of delivers]. unfold as_calls. cbn [map as_call upto closes flat_map]. f_equal. exact IH.
Qed.

(** ** What it reads *)
Lemma wf_up : forall f, up_frame f -> wf (wire f).
Proof.
  destruct Snd as (W & _ & _). intros f [[n ->]|[[n ->]| ->]]; cbn [with_n wire rf_stream_id rf_type rf_metadata rf_data stream_request]; rewrite ?wf_app.
  - split; [apply RustCallProofs.wf_header|]. split; [apply RustCallProofs.wf_bytes4|]. split; [apply RustCallProofs.wf_wire_md; exact W|exact Wd].
  - split; [apply RustCallProofs.wf_header|apply RustCallProofs.wf_bytes4].
  - apply RustCallProofs.wf_header.
Qed.
Lemma sid_of : forall h f, says (go_view h) = f -> rframe_sid h = frame_sid f.
Proof. intros h f <-. destruct h as [p|s|s c x|s n|r|r|r|r]; reflexivity. Qed.
Lemma decode_up : forall f, up_frame f -> exists h, rframe_decode (wire f) = Ret h /\ rframe_sid h = sid /\
  process h = match f with FramesModel.FRequest _ => ([Fresh data md], []) | FRequestN _ n => ([], [Complained n]) | _ => ([], []) end.
Proof.
  intros f U. destruct (up_good sid data md Sid Snd f U) as (R & L & S). assert (A := parse_agree _ (wf_up f U)). rewrite (frame_parse_wire f R L) in A. cbn [agree] in A.
  assert (T : readable_text (on_wire f)) by (destruct U as [[n ->]|[[n ->]| ->]]; exact Logic.I).
  destruct A as [[_ (h & E & Sy & C)]|[NR _]]; [|contradiction]. exists h. split; [exact E|]. rewrite (sid_of h _ Sy). split; [destruct U as [[n ->]|[[n ->]| ->]]; reflexivity|]. clear E.
  destruct U as [[n ->]|[[n ->]| ->]]; cbn [with_n on_wire] in Sy.
  - destruct h as [p|s|s c x|s k|r|r|r|r]; try discriminate Sy; cbn [go_view go_request says consistent] in Sy, C; rewrite C in Sy;
    assert (Q := f_equal (fun f => match f with FramesModel.FRequest x => (rf_type x, rf_data x, rf_metadata x) | _ => (0, [], []) end) Sy); cbn in Q; try discriminate Q.
    assert (Q2 := f_equal (fun x => snd (fst x)) Q). assert (Q3 := f_equal snd Q). cbn [fst snd] in Q2, Q3. cbn [process with_n]. rewrite Q2, Q3. reflexivity.
  - destruct h as [p|s|s c x|s k|r|r|r|r]; try discriminate Sy; cbn [go_view go_request says consistent] in Sy, C; try (rewrite C in Sy; discriminate Sy).
    assert (Q := f_equal (fun f => match f with FRequestN _ x => x | _ => 0 end) Sy). cbn beta iota in Q. cbn [process]. congruence.
  - destruct h as [p|s|s c x|s k|r|r|r|r]; try discriminate Sy. reflexivity.
Qed.
Lemma decode_foreign : forall bs h, foreign sid bs -> wf bs -> rframe_decode bs = Ret h -> (rframe_sid h =? sid) = false.
Proof using.
  clear. intros bs h (f & P & D) W E. assert (A := parse_agree _ W). rewrite P, E in A. cbn [agree] in A. destruct A as [[_ (h' & E' & S & _)]|[_ A]]; [|discriminate A]. injection E' as <-. rewrite (sid_of h f S). apply N.eqb_neq. exact D.
Qed.

(** ** The invariant *)
Definition pick : option Hr := nth_error tbl (N.to_nat (number4 md)).
Definition ran : list (Hr * bytes * bytes) := match pick with Some h => [(h, data, md)] | None => [] end.
Definition tasks_ok (tasks : list stask) (runs : list (Hr * bytes * bytes)) (pushed : list rsig) (said : list saying) : Prop :=
  match tasks with
  | [] => runs = [] /\ pushed = [] /\ plain said = []
  | [Fresh d m] => d = data /\ m = md /\ runs = [] /\ pushed = [] /\ plain said = []
  | [Open q live] => 4 <= len md /\ runs = ran /\ (pick = None -> pushed = [Problem RustCallModel.no_handler] /\ live = false) /\
      exists told, plain said = map Told told /\ pushed = told ++ q /\ until_finish told = told
  | [Over] => 4 <= len md /\ runs = ran /\ (pick = None -> pushed = [Problem RustCallModel.no_handler]) /\ plain said = map Told (until_finish pushed) ++ [Ended]
  | _ => False
  end.
Definition more (l : list frame) : list N := flat_map (fun f => match f with FRequestN _ n => [n] | _ => [] end) l.
Record ginv (ptr : list pevent) (up dn : line) (gone : list frame) (tasks : list stask) (runs : list (Hr * bytes * bytes)) (pushed : list rsig) (said : list saying) : Prop := {
  g_taken : exists taken, psent ptr = taken ++ ours up /\ nsum tok taken = N.of_nat (length tasks) /\ more taken = complaints said /\ (taken = [] -> said = []);
  g_wf : Forall (fun x : frame + bytes => match x with inl _ => True | inr b => wf b end) up;
  g_link : gone ++ ours dn = map frame_of said;
  g_pushed : Forall (fun s => sendable_call (as_call s)) pushed;
  g_tasks : tasks_ok tasks runs pushed said }.
Definition sys (c : rconf) : Prop := exists up dn gone, s_up c = encode up /\ s_down c = encode dn /\
  hinv (s_p c) (s_pths c) (s_ptr c) (s_ptodo c) (s_preg c) up dn gone /\ ginv (s_ptr c) up dn gone (s_tasks c) (s_runs c) (s_pushed c) (s_said c).

Lemma plain_app : forall a b, plain (a ++ b) = plain a ++ plain b.
Proof using. intros. apply filter_app. Qed.
Lemma complaints_app : forall a b, complaints (a ++ b) = complaints a ++ complaints b.
Proof using. intros. apply flat_map_app. Qed.
Lemma more_app : forall a b, more (a ++ b) = more a ++ more b.
Proof using. intros. apply flat_map_app. Qed.
Lemma until_app : forall a b, until_finish a = a -> until_finish (a ++ b) = a ++ until_finish b.
Proof using. clear. induction a as [|s a IH]; intros b E; [reflexivity|]. destruct s; cbn [until_finish app] in *; try discriminate E; (f_equal; apply IH; congruence). Qed.
Lemma find_pick : 4 <= len md -> RustCallModel.find_handler tbl md = Ret (match pick with Some h => inl h | None => inr RustCallModel.no_handler end).
Proof using Snd. intro L. apply RustCallProofs.find_handler_eq; [apply Snd|exact L]. Qed.

(** One step of a task. *)
Lemma task_goes : forall ptr up dn gone a t b runs pushed said t' runs' pushed' said',
  ginv ptr up dn gone (a ++ t :: b) runs pushed said -> task_step tbl t = Some (t', runs', pushed', said') ->
  Forall fit_saying said' /\ (said' <> [] -> psent ptr <> []) /\ ginv ptr up (dn ++ map inl (map frame_of said')) gone (a ++ t' :: b) (runs ++ runs') (pushed ++ pushed') (said ++ said').
Proof.
  intros ptr up dn gone a t b runs pushed said t' runs' pushed' said' [] X.
  assert (a = [] /\ b = []) as [-> ->].
  { destruct a as [|x a]; [destruct b as [|y b]; [split; reflexivity|]|]; exfalso; cbn [app tasks_ok] in g_tasks0; [destruct t; exact g_tasks0|]. destruct x; destruct a; exact g_tasks0. }
  cbn [app] in *. destruct g_taken0 as (taken & T1 & T2 & T3 & T4).
  assert (Tn : taken <> []) by (intros ->; discriminate T2).
  assert (Pn : psent ptr <> []) by (rewrite T1; intro Z; apply app_eq_nil in Z; tauto).
  assert (Fin : Forall fit_saying said' /\ complaints said' = [] /\ Forall (fun s => sendable_call (as_call s)) pushed' /\ tasks_ok [t'] (runs ++ runs') (pushed ++ pushed') (said ++ said')).
  { destruct t as [d m|q live|]; [|destruct q as [|s q]; [destruct live; [discriminate X|]|]|discriminate X].
    - cbn [tasks_ok] in g_tasks0. destruct g_tasks0 as (-> & -> & -> & -> & P). cbn [task_step] in X. destruct (N.ltb_spec (len md) 4) as [L|L].
      { unfold RustCallModel.find_handler, RustOpsModel.parse_metadata in X. replace (4 <=? len md) with false in X by lia. discriminate X. }
      rewrite (find_pick L) in X. destruct pick as [h|] eqn:K; injection X as <- <- <- <-; rewrite !app_nil_r; cbn [app].
      + split; [constructor|]. split; [reflexivity|]. split; [constructor|]. cbn [tasks_ok]. unfold ran. rewrite K. split; [exact L|]. split; [reflexivity|]. split; [discriminate|]. exists []. repeat split. exact P.
      + split; [constructor|]. split; [reflexivity|]. split; [repeat constructor|]. cbn [tasks_ok]. unfold ran. rewrite K. split; [exact L|]. split; [reflexivity|]. split; [split; reflexivity|]. exists []. repeat split. exact P.
    - injection X as <- <- <- <-. rewrite !app_nil_r. split; [repeat constructor|]. split; [reflexivity|]. split; [constructor|]. cbn [tasks_ok] in *. destruct g_tasks0 as (L & R & P & told & A & B & C). rewrite app_nil_r in B. subst pushed. split; [exact L|]. split; [exact R|]. split; [intro Z; apply P; exact Z|]. rewrite plain_app, A, C. reflexivity.
    - cbn [tasks_ok] in g_tasks0. destruct g_tasks0 as (L & R & P & told & A & B & C).
      assert (D : s = Finish \/ s <> Finish) by (destruct s; (left; reflexivity) || (right; discriminate)). destruct D as [-> |D].
      + injection X as <- <- <- <-. rewrite !app_nil_r. split; [repeat constructor|]. split; [reflexivity|]. split; [constructor|]. cbn [tasks_ok]. split; [exact L|]. split; [exact R|]. split; [intro Z; apply P; exact Z|]. rewrite plain_app, A, B, (until_app _ _ C). cbn [until_finish]. rewrite app_nil_r. reflexivity.
      + assert (X' : Some (Open q live, @nil (Hr * bytes * bytes), @nil rsig, [Told s]) = Some (t', runs', pushed', said')) by (destruct s; try exact X; congruence). injection X' as <- <- <- <-. rewrite !app_nil_r.
        assert (Fs : sendable_call (as_call s)) by (rewrite Forall_forall in g_pushed0; apply g_pushed0; rewrite B; apply in_or_app; right; left; reflexivity).
        split; [repeat constructor; exact Fs|]. split; [reflexivity|]. split; [constructor|]. cbn [tasks_ok]. split; [exact L|]. split; [exact R|]. split; [exact P|]. exists (told ++ [s]). rewrite plain_app, A, map_app, <- app_assoc. split; [reflexivity|]. split; [exact B|].
        rewrite (until_app _ _ C). f_equal. destruct s; try reflexivity. congruence. }
  destruct Fin as (F1 & F2 & F3 & F4). split; [exact F1|]. split; [intros _; exact Pn|]. constructor.
  - exists taken. split; [exact T1|]. split; [exact T2|]. split; [rewrite complaints_app, F2, app_nil_r; exact T3|]. intro Z. contradiction.
  - exact g_wf0.
  - rewrite ours_app, ours_inl, app_assoc, g_link0, map_app. reflexivity.
  - apply Forall_app. split; assumption.
  - exact F4.
Qed.

(** Frames are taken. *)
Lemma tok_one : forall p ths ptr, preach sp g req false p ths ptr -> nsum tok (psent ptr) <= 1.
Proof using Sid. exact (StreamProofs.tok_one sp g sid data md Sid). Qed.
Lemma given_own : forall p pths ptr ptodo preg up dn gone f tasks runs pushed said new said',
  hinv p pths ptr ptodo preg (inl f :: up) dn gone -> ginv ptr (inl f :: up) dn gone tasks runs pushed said ->
  (new, said') = match f with FramesModel.FRequest _ => ([Fresh data md], []) | FRequestN _ n => ([], [Complained n]) | _ => ([], []) end ->
  Forall fit_saying said' /\ (said' <> [] -> psent ptr <> []) /\ ginv ptr up (dn ++ map inl (map frame_of said')) gone (tasks ++ new) runs pushed (said ++ said').
Proof.
  intros p pths ptr ptodo preg up dn gone f tasks runs pushed said new said' [] [] E. destruct g_taken0 as (taken & T1 & T2 & T3 & T4). cbn [ours flat_map app] in T1. fold (ours up) in T1.
  assert (Tk := tok_one _ _ _ h_p0). rewrite T1, nsum_app, nsum_cons, T2 in Tk.
  assert (Pn : psent ptr <> []) by (rewrite T1; intro Z; apply app_eq_nil in Z; destruct Z; discriminate).
  assert (Fin : Forall fit_saying said' /\ plain said' = [] /\ N.of_nat (length (tasks ++ new)) = N.of_nat (length tasks) + tok f /\ complaints said' = more [f] /\ tasks_ok (tasks ++ new) runs pushed (said ++ said')).
  { destruct f as [s|s n|s c x|q|r]; injection E as -> ->; rewrite ?app_nil_r.
    - split; [constructor|]. split; [reflexivity|]. split; [cbn [tok]; lia|]. split; [reflexivity|exact g_tasks0].
    - split; [repeat constructor|]. split; [reflexivity|]. split; [cbn [tok]; lia|]. split; [reflexivity|]. unfold tasks_ok in *. rewrite plain_app. cbn [plain filter]. rewrite app_nil_r. exact g_tasks0.
    - split; [constructor|]. split; [reflexivity|]. split; [cbn [tok]; lia|]. split; [reflexivity|exact g_tasks0].
    - split; [constructor|]. split; [reflexivity|]. split; [cbn [tok]; lia|]. split; [reflexivity|exact g_tasks0].
    - cbn [tok] in *. assert (Tz : tasks = []) by (destruct tasks; [reflexivity|cbn [length] in Tk; lia]). subst tasks. split; [constructor|]. split; [reflexivity|]. split; [reflexivity|]. split; [reflexivity|]. cbn [app tasks_ok] in *. destruct g_tasks0 as (-> & -> & Z). repeat split. exact Z. }
  destruct Fin as (F1 & F2 & F3 & F4 & F5). split; [exact F1|]. split; [intros _; exact Pn|]. constructor.
  - exists (taken ++ [f]). split; [rewrite T1, <- app_assoc; reflexivity|]. split; [rewrite nsum_app, nsum_cons, nsum_nil, T2, F3; lia|]. split; [rewrite more_app, complaints_app, T3, F4; reflexivity|]. intro Z. apply app_eq_nil in Z. destruct Z; discriminate.
  - inversion g_wf0; assumption.
  - rewrite ours_app, ours_inl, app_assoc, g_link0, map_app. reflexivity.
  - exact g_pushed0.
  - exact F5.
Qed.
Lemma given_other : forall ptr b up dn gone tasks runs pushed said, ginv ptr (inr b :: up) dn gone tasks runs pushed said -> wf b /\ ginv ptr up dn gone tasks runs pushed said.
Proof using. intros ptr b up dn gone tasks runs pushed said []. split; [inversion g_wf0; assumption|]. constructor; try assumption. inversion g_wf0; assumption. Qed.

Ltac fields := unfold set_go, set_rust; cbn [s_p s_pths s_ptr s_ptodo s_preg s_up s_down s_tasks s_runs s_pushed s_said].
Lemma cut_one : forall {A} j (l : list A) a x b, CallModel.cut j l = Some (a, x, b) -> l = a ++ x :: b.
Proof using. intros A j l a x b E. exact (proj1 (cut_inv _ _ _ _ _ E)). Qed.

Lemma sys_init : forall n, sys (rs_create n).
Proof.
  intro n. exists [], [], []. split; [reflexivity|]. split; [reflexivity|]. split; [apply h_init|]. constructor.
  - exists []. repeat split.
  - constructor.
  - reflexivity.
  - constructor.
  - repeat split.
Qed.
Lemma sent_more : forall ptr evs up dn gone tasks runs pushed said, ginv ptr up dn gone tasks runs pushed said -> ginv (ptr ++ evs) (up ++ map inl (psent evs)) dn gone tasks runs pushed said.
Proof using.
  intros ptr evs up dn gone tasks runs pushed said []. constructor; try assumption.
  - destruct g_taken0 as (taken & T1 & T2). exists taken. split; [|exact T2]. rewrite psent_app, ours_app, ours_inl, T1, app_assoc. reflexivity.
  - apply Forall_app. split; [exact g_wf0|]. apply Forall_forall. intros x X. apply in_map_iff in X. destruct X as (f & <- & _). exact Logic.I.
Qed.
Lemma got_less : forall ptr up f dn gone tasks runs pushed said, ginv ptr up (inl f :: dn) gone tasks runs pushed said -> ginv ptr up dn (gone ++ [f]) tasks runs pushed said.
Proof using. intros ptr up f dn gone tasks runs pushed said []. constructor; try assumption. rewrite <- app_assoc. exact g_link0. Qed.
Lemma got_other : forall ptr up b dn gone tasks runs pushed said, ginv ptr up (inr b :: dn) gone tasks runs pushed said -> ginv ptr up dn gone tasks runs pushed said.
Proof using. intros ptr up b dn gone tasks runs pushed said []. constructor; assumption. Qed.

Lemma single : forall a (t : stask) b runs pushed said, tasks_ok (a ++ t :: b) runs pushed said -> a = [] /\ b = [].
Proof using.
  intros a t b runs pushed said T. destruct a as [|x a]; [destruct b as [|y b]; [split; reflexivity|]|]; exfalso; cbn [app tasks_ok] in T; [destruct t; exact T|]. destruct x; destruct a; exact T.
Qed.

Ltac four := split; [reflexivity|]; split; [reflexivity|]; split.
Lemma move_sys : forall c m c', sys c -> s_allowed sid m -> s_move w go_tbl sp g tbl sid data md c m = Some c' -> sys c'.
Proof.
  intros [p pths ptr ptodo preg u d tasks runs pushed said] m c' (up & dn & gone & Eu & Ed & I & G) A X. cbn [s_p s_pths s_ptr s_ptodo s_preg s_up s_down s_tasks s_runs s_pushed s_said] in *. subst u d.
  destruct m; cbn [s_allowed] in A; unfold s_move in X; cbn [s_p s_pths s_ptr s_ptodo s_preg s_up s_down s_tasks s_runs s_pushed s_said] in X.
  - (* SCall *) destruct (CallModel.cut i pths) as [[[l x] rest]|] eqn:C; [|discriminate X]. destruct x as [|[[]| |] stack]; try discriminate X. destruct (pcalls c) eqn:P; [|discriminate X]. injection X as <-. rewrite (cut_one _ _ _ _ _ C) in I.
    exists up, dn, gone. fields. rewrite app_nil_r. four; try assumption. apply h_call; assumption.
  - (* SReturn *) destruct (CallModel.cut i pths) as [[[l x] rest]|] eqn:C; [|discriminate X]. destruct x as [|[[]| |] stack]; try discriminate X. destruct stack as [|it stack]; [discriminate X|]. injection X as <-. rewrite (cut_one _ _ _ _ _ C) in I.
    exists up, dn, gone. fields. rewrite app_nil_r. four; try assumption. apply h_return; assumption.
  - (* SStep *) destruct (CallModel.cut i pths) as [[[l x] rest]|] eqn:C; [|discriminate X]. destruct x as [|it stack]; [discriminate X|]. destruct (pstep sp g req false p it) as [[[[st its] new] evs]|] eqn:Y; [|discriminate X]. rewrite (cut_one _ _ _ _ _ C) in I.
    destruct (h_step sp g sid data md Sid Snd _ _ _ _ _ _ _ _ _ _ _ _ _ _ _ I Y) as [F I']. rewrite (posts_good sid _ _ F) in X. injection X as <-. exists (up ++ map inl (psent evs)), dn, gone. fields. split; [rewrite encode_app, encode_inl; reflexivity|]. split; [reflexivity|]. split; [exact I'|]. apply sent_more. exact G.
  - (* SRecv *) destruct pths as [|[|[[]| |] []] us]; try discriminate X. destruct ptodo; [|discriminate X]. destruct dn as [|[f|b] dn]; [discriminate X| |]; cbn [encode map] in X; fold (encode dn) in X.
    + destruct (h_recv sp g sid data md _ _ _ _ _ _ _ _ I eq_refl) as [[Gf Af] I']. assert (R := recv_own sid w go_tbl preg f Gf). specialize (R ltac:(destruct f; discriminate Af || reflexivity)).
      exists up, dn, (gone ++ [f]). destruct preg.
      * rewrite R in X. injection X as <-. fields. rewrite app_nil_r, own_doing. four; try assumption. apply got_less. exact G.
      * destruct R as [R|[e R]]; rewrite R in X; injection X as <-; fields; rewrite app_nil_r; (four; try assumption; apply got_less; exact G).
    + destruct (h_skip sp g sid data md _ _ _ _ _ _ _ _ _ I) as [Fb I']. exists up, dn, gone. destruct (received sid w go_tbl preg b) as [l|e|] eqn:R; [| |discriminate X]; injection X as <-; fields; rewrite app_nil_r; rewrite ?(recv_foreign sid _ _ _ _ _ Fb R); (four; try assumption; apply got_other in G; exact G).
  - (* SAct *) destruct pths as [|[|[[]| |] []] us]; try discriminate X. destruct ptodo as [|a todo]; [discriminate X|]. destruct a as [| | | |s f|]; try discriminate X.
    + destruct (net_call f) as [n|] eqn:Nc; [|discriminate X]. injection X as <-. exists up, dn, gone. fields. rewrite app_nil_r. four; try assumption. eapply h_act_call; eassumption.
    + injection X as <-. exists up, dn, gone. fields. rewrite app_nil_r. four; try assumption. eapply h_act_remove. exact I.
  - (* SGive *) destruct up as [|[f|b] up]; [discriminate X| |]; cbn [encode map] in X; fold (encode up) in X.
    + assert (U : up_frame f) by (destruct I; destruct h_up0 as [_ U]; inversion U; assumption). destruct (decode_up f U) as (h & D & S & P). rewrite D, S, N.eqb_refl in X. destruct (process h) as [new said'] eqn:Q. destruct (given_own _ _ _ _ _ _ _ _ _ _ _ _ _ new said' I G P) as (F1 & F2 & G'). rewrite (say_ok _ _ F1) in X. injection X as <-.
      exists up, (dn ++ map inl (map frame_of said')), gone. fields. rewrite !app_nil_r. split; [reflexivity|]. split; [rewrite encode_app, encode_inl; reflexivity|]. split; [|exact G']. apply h_answer; [eapply h_taken; exact I|apply frames_good; exact F1|intro Z; apply F2; intros ->; apply Z; reflexivity].
    + destruct (given_other _ _ _ _ _ _ _ _ _ G) as [Wb G']. assert (Fb : foreign sid b) by (destruct I; destruct h_up0 as [U _]; inversion U; assumption). apply h_taken in I. exists up, dn, gone.
      destruct (rframe_decode b) as [h|e|] eqn:D; [|injection X as <-; fields; rewrite !app_nil_r; four; assumption|discriminate X]. rewrite (decode_foreign b h Fb Wb D) in X. unfold say in X. cbn [map RustCallModel.encode_all] in X. injection X as <-. fields. rewrite !app_nil_r. four; assumption.
  - (* STask *) destruct (CallModel.cut j tasks) as [[[a t] b]|] eqn:C; [|discriminate X]. destruct (task_step tbl t) as [[[[t' runs'] pushed'] said']|] eqn:T; [|discriminate X]. rewrite (cut_one _ _ _ _ _ C) in G. destruct (task_goes _ _ _ _ _ _ _ _ _ _ _ _ _ _ G T) as (F1 & F2 & G'). rewrite (say_ok _ _ F1) in X. injection X as <-.
    exists up, (dn ++ map inl (map frame_of said')), gone. fields. split; [reflexivity|]. split; [rewrite encode_app, encode_inl; reflexivity|]. split; [|exact G']. apply h_answer; [exact I|apply frames_good; exact F1|intro Z; apply F2; intros ->; apply Z; reflexivity].
  - (* SPush *) destruct (CallModel.cut j tasks) as [[[a t] b]|] eqn:C; [|discriminate X]. destruct t as [|q [|]|]; try discriminate X. rewrite (cut_one _ _ _ _ _ C) in G. injection X as <-. exists up, dn, gone. fields. rewrite !app_nil_r. split; [reflexivity|]. split; [reflexivity|]. split; [exact I|].
    destruct G. destruct (single _ _ _ _ _ _ g_tasks0) as [-> ->]. constructor; try assumption; [apply Forall_app; split; [assumption|repeat constructor; exact A]|]. cbn [app tasks_ok] in *. destruct g_tasks0 as (L & R & P & told & B & D & E). split; [exact L|]. split; [exact R|]. split; [intro Z; destruct (P Z); discriminate|]. exists told. split; [exact B|]. split; [rewrite D, app_assoc; reflexivity|exact E].
  - (* SDrop *) destruct (CallModel.cut j tasks) as [[[a t] b]|] eqn:C; [|discriminate X]. destruct t as [|q [|]|]; try discriminate X. rewrite (cut_one _ _ _ _ _ C) in G. injection X as <-. exists up, dn, gone. fields. rewrite !app_nil_r. split; [reflexivity|]. split; [reflexivity|]. split; [exact I|].
    destruct G. destruct (single _ _ _ _ _ _ g_tasks0) as [-> ->]. constructor; try assumption. cbn [app tasks_ok] in *. destruct g_tasks0 as (L & R & P & told & B). split; [exact L|]. split; [exact R|]. split; [intro Z; destruct (P Z); discriminate|]. exists told. exact B.
  - (* SUp *) injection X as <-. destruct A as [A W]. exists (up ++ [inr bs]), dn, gone. fields. rewrite !app_nil_r. split; [rewrite encode_app; reflexivity|]. split; [reflexivity|]. split; [apply h_other_up; assumption|]. destruct G. constructor; try assumption; [|apply Forall_app; split; [assumption|repeat constructor; exact W]]. rewrite ours_app. cbn [ours flat_map]. rewrite app_nil_r. assumption.
  - (* SDown *) injection X as <-. exists up, (dn ++ [inr bs]), gone. fields. rewrite !app_nil_r. split; [reflexivity|]. split; [rewrite encode_app; reflexivity|]. split; [apply h_other_down; assumption|]. destruct G. constructor; try assumption. rewrite ours_app. cbn [ours flat_map]. rewrite app_nil_r. assumption.
Qed.
Lemma reach_sys : forall c, s_reach w go_tbl sp g tbl sid data md c -> sys c.
Proof. intros c R. induction R as [n|c m c' R IH A X]; [apply sys_init|]. eapply move_sys; eassumption. Qed.

(** ** What it says *)
Lemma quiet : forall c : rconf, s_undisturbed c -> disturbed (s_ptr c) = false.
Proof using.
  intros c [A B]. unfold disturbed. change (pvs (s_ptr c)) with (s_subscriber c). destruct (existsb disturbs (fcalls (s_subscriber c))) eqn:E; [|reflexivity]. exfalso. apply existsb_exists in E. destruct E as (x & X & D). destruct x; try discriminate D; [exact (A X)|exact (B X)].
Qed.
Lemma prefix_expected : forall (l l' : list (fcall pay bytes)), exists d, expected g (l ++ l') = expected g l ++ d.
Proof using. intros. rewrite (expected_app g). eexists. reflexivity. Qed.
Lemma sys_seen : forall c, sys c -> exists d, expected g (as_calls (s_said c)) = s_seen c ++ d.
Proof using.
  intros c (up & dn & gone & _ & _ & [] & []). destruct (kinv_prefix g _ _ _ h_k0) as [x Dx]. destruct h_disp0 as (cs & rem & _ & E & _). change (pvs (s_ptr c)) with (s_subscriber c) in Dx. unfold due in Dx.
  rewrite <- effects_said, <- g_link0, effects_app, map_app, <- E, map_app. unfold s_seen. rewrite <- app_assoc. destruct (prefix_expected (map fc (nets (s_ptr c))) (map fc (head_nets (s_pths c) ++ flat_map netc cs) ++ map fc (if ended gone then [] else effects (ours dn)))) as [y Y]. rewrite Y, Dx, <- app_assoc. eexists. reflexivity.
Qed.
Lemma encode_nil : forall l, encode l = [] -> l = [].
Proof using. destruct l; [reflexivity|discriminate]. Qed.
Lemma sys_rest : forall c, sys c -> s_rest c -> s_undisturbed c -> s_seen c = expected g (as_calls (s_said c)).
Proof using.
  intros c (up & dn & gone & Eu & Ed & [] & []) (Up & Dn & Pt & [us Pu] & _) U. rewrite Pu in h_k0, h_disp0. assert (Dk := kinv_idle g _ _ _ h_k0 (quiet c U)). destruct h_disp0 as (cs & rem & T & E & _). rewrite Pt in T.
  assert (cs = []) as -> by (destruct cs; [reflexivity|discriminate T]). cbn [head_nets flat_map app] in E. rewrite app_nil_r in E. rewrite Ed in Dn. apply encode_nil in Dn. subst dn. cbn [ours flat_map] in g_link0. rewrite app_nil_r in g_link0. rewrite <- effects_said, <- g_link0, <- E. exact Dk.
Qed.
Lemma sys_said : forall c, sys c -> exists d, map Told (until_finish (s_pushed c)) ++ [Ended] = plain (s_said c) ++ d.
Proof using.
  intros c (up & dn & gone & _ & _ & _ & []). unfold tasks_ok in g_tasks0. destruct (s_tasks c) as [|[d m|q live|] [|? ?]]; try contradiction.
  - destruct g_tasks0 as (_ & _ & ->). eexists. reflexivity.
  - destruct g_tasks0 as (_ & _ & _ & _ & ->). eexists. reflexivity.
  - destruct g_tasks0 as (_ & _ & _ & told & -> & -> & E). rewrite (until_app _ _ E), map_app, <- app_assoc. eexists. reflexivity.
  - destruct g_tasks0 as (_ & _ & _ & ->). exists []. rewrite app_nil_r. reflexivity.
Qed.
(** The guest's task is over. *)
Lemma sys_said_rest : forall c, sys c -> s_rest c -> plain (s_said c) = map Told (until_finish (s_pushed c)) ++ (if finished c then [Ended] else []).
Proof using.
  intros c (up & dn & gone & _ & _ & _ & []) (_ & _ & _ & _ & S). unfold finished. unfold tasks_ok in g_tasks0. destruct (s_tasks c) as [|[d m|q live|] [|? ?]]; try contradiction; try discriminate S.
  - destruct g_tasks0 as (_ & -> & ->). reflexivity.
  - destruct q; [|discriminate S]. destruct g_tasks0 as (_ & _ & _ & told & -> & -> & E). rewrite (until_app _ _ E). cbn [until_finish existsb orb]. rewrite !app_nil_r. reflexivity.
  - destruct g_tasks0 as (_ & _ & _ & ->). reflexivity.
Qed.
Lemma sys_more : forall c, sys c -> (exists d, further c = complaints (s_said c) ++ d) /\ (s_rest c -> further c = complaints (s_said c)).
Proof using.
  intros c (up & dn & gone & Eu & _ & _ & []). destruct g_taken0 as (taken & T1 & _ & T3 & _). change (further c) with (more (psent (s_ptr c))). rewrite T1, more_app, T3. split; [eexists; reflexivity|].
  intros (Up & _). rewrite Eu in Up. apply encode_nil in Up. subst up. cbn [ours flat_map more]. apply app_nil_r.
Qed.
Lemma plain_all : forall l, complaints l = [] -> plain l = l.
Proof using. clear. induction l as [|s l IH]; intro E; [reflexivity|]. destruct s; cbn [plain filter complaints flat_map app] in *; try discriminate E; (f_equal; apply IH; exact E). Qed.
Lemma as_calls_told : forall l, as_calls (map Told l) = map as_call l.
Proof using. intro l. unfold as_calls. rewrite map_map. reflexivity. Qed.
Lemma as_calls_app : forall a b, as_calls (a ++ b) = as_calls a ++ as_calls b.
Proof using. intros. apply map_app. Qed.
Lemma once_seen : forall c, sys c -> further c = [] -> exists d, expected g (map as_call (until_finish (s_pushed c)) ++ [FComplete]) = s_seen c ++ d.
Proof using.
  intros c S F. destruct (sys_seen c S) as [d D]. destruct (sys_said c S) as [e E]. destruct (sys_more c S) as [[f M] _]. rewrite F in M. symmetry in M. apply app_eq_nil in M. destruct M as [M _]. rewrite (plain_all _ M) in E.
  assert (Q := f_equal as_calls E). rewrite !as_calls_app, as_calls_told in Q. change (as_calls [Ended]) with [@FComplete pay bytes] in Q. rewrite Q. destruct (prefix_expected (as_calls (s_said c)) (as_calls e)) as [y Y]. rewrite Y, D, <- app_assoc. eexists. reflexivity.
Qed.
Lemma once_rest : forall c, sys c -> further c = [] -> s_rest c -> s_undisturbed c ->
  s_seen c = expected g (map as_call (until_finish (s_pushed c)) ++ (if finished c then [FComplete] else [])).
Proof using.
  intros c S F R U. rewrite (sys_rest c S R U). destruct (sys_more c S) as [_ M]. specialize (M R). rewrite F in M. symmetry in M. assert (E := sys_said_rest c S R). rewrite (plain_all _ M) in E. rewrite E, as_calls_app, as_calls_told. destruct (finished c); reflexivity.
Qed.
(** A subscriber that asks again. *)
Lemma split_first : forall l n ns, complaints l = n :: ns -> exists a b, l = a ++ Complained n :: b /\ complaints a = [].
Proof using.
  clear. induction l as [|s l IH]; intros n ns E; [discriminate E|]. destruct s; cbn [complaints flat_map app] in E.
  - destruct (IH n ns E) as (a & b & -> & C). exists (Told s :: a), b. split; [reflexivity|exact C].
  - destruct (IH n ns E) as (a & b & -> & C). exists (Ended :: a), b. split; [reflexivity|exact C].
  - injection E as <- _. exists [], l. split; reflexivity.
Qed.
Lemma items_expected : forall l x, expected g (map FNext l ++ x) = (if k_next g then map (@VNext pay bytes) l else []) ++ expected g x.
Proof using.
  clear. unfold expected. induction l as [|v l IH]; intro x; [destruct (k_next g); reflexivity|]. cbn [map app upto closes flat_map delivers]. rewrite IH. destruct (k_next g); reflexivity.
Qed.
Lemma told_items : forall (a : list saying) t items, map Told (map Item items) = a ++ t -> exists k, a = map Told (map Item (firstn k items)).
Proof using.
  clear. induction a as [|s a IH]; intros t items E; [exists 0%nat; reflexivity|]. destruct items as [|i items]; [discriminate E|]. cbn [map app] in E. injection E as <- E. destruct (IH t items E) as [k ->]. exists (Datatypes.S k). reflexivity.
Qed.
Lemma no_finish : forall items, until_finish (map Item items) = map Item items.
Proof using. clear. induction items as [|v l IH]; [reflexivity|]. cbn [map until_finish]. rewrite IH. reflexivity. Qed.
Lemma again_rest : forall c items n ns, sys c -> s_pushed c = map Item items -> further c = n :: ns -> finished c = false -> s_rest c -> s_undisturbed c ->
  exists k, s_seen c = (if k_next g then map (@VNext pay bytes) (firstn k items) else []) ++ (if k_error g then [VError (if n =? 0 then RustCallModel.invalid_n else RustCallModel.missing_id)] else []).
Proof using.
  intros c items n ns S P F T R U. rewrite (sys_rest c S R U). destruct (sys_more c S) as [_ M]. specialize (M R). rewrite F in M. symmetry in M. destruct (split_first _ _ _ M) as (a & b & E & C). assert (Q := sys_said_rest c S R).
  rename T into Z.
  rewrite Z, app_nil_r, P, no_finish, E, plain_app, (plain_all _ C) in Q. symmetry in Q. destruct (told_items _ _ _ Q) as [k K]. exists k. rewrite E, K, as_calls_app, as_calls_told, map_map. cbn [as_call]. change (map (fun x => FNext x) (firstn k items)) with (map (@FNext pay bytes) (firstn k items)). rewrite items_expected. f_equal.
  unfold as_calls, expected. cbn [map upto closes flat_map delivers]. apply app_nil_r.
Qed.
(** Handlers. *)
Lemma sys_runs : forall c, sys c -> match pick with Some h => s_runs c = [] \/ s_runs c = [(h, data, md)] | None => s_runs c = [] end /\ (len md < 4 -> s_runs c = []) /\
  (s_rest c -> s_opened c -> 4 <= len md /\ s_runs c = ran /\ (pick = None -> s_pushed c = [Problem RustCallModel.no_handler] /\ s_tasks c = [Over])).
Proof using.
  clear Sid Snd Wd. intros c (up & dn & gone & Eu & _ & _ & []).
  assert (O : s_rest c -> s_opened c -> s_tasks c <> []).
  { intros (Up & _) (r & Ir) Z. rewrite Eu in Up. apply encode_nil in Up. subst up. destruct g_taken0 as (taken & T1 & T2 & _). rewrite Z in T2. cbn [ours flat_map length] in *. rewrite app_nil_r in T1. change (frames_sent (s_ptr c)) with (psent (s_ptr c)) in Ir. rewrite T1 in Ir. clear -Ir T2.
    induction taken as [|f l IH]; [destruct Ir|]. rewrite nsum_cons in T2. destruct Ir as [->|Ir]; [cbn [tok] in T2; lia|]. apply IH; [lia|exact Ir]. }
  unfold tasks_ok, ran in *. destruct (s_tasks c) as [|[d m|q live|] [|? ?]] eqn:Tc; try contradiction.
  - destruct g_tasks0 as (-> & _). split; [destruct pick; auto|]. split; [reflexivity|]. intros A B. destruct (O A B eq_refl).
  - destruct g_tasks0 as (_ & _ & -> & _). split; [destruct pick; auto|]. split; [reflexivity|]. intros (_ & _ & _ & _ & A) B. rewrite Tc in A. discriminate A.
  - destruct g_tasks0 as (L & -> & P & _). split; [destruct pick; auto|]. split; [lia|]. intros (_ & _ & _ & _ & A) B. split; [exact L|]. split; [reflexivity|]. intro Z. destruct (P Z) as [_ ->]. rewrite Tc in A. destruct q; discriminate A.
  - destruct g_tasks0 as (L & -> & P & _). split; [destruct pick; auto|]. split; [lia|]. intros A B. split; [exact L|]. split; [reflexivity|]. intro Z. split; [exact (P Z)|reflexivity].
Qed.
Lemma refused_pushed : forall c, sys c -> pick = None -> s_pushed c = [] \/ s_pushed c = [Problem RustCallModel.no_handler].
Proof using.
  intros c (up & dn & gone & Eu & _ & _ & []) K. unfold tasks_ok in *. destruct (s_tasks c) as [|[d m|q live|] [|? ?]]; try contradiction.
  - left. apply g_tasks0.
  - left. apply g_tasks0.
  - right. destruct g_tasks0 as (_ & _ & P & _). apply P. exact K.
  - right. destruct g_tasks0 as (_ & _ & P & _). apply P. exact K.
Qed.
Lemma refused_fresh : forall c, sys c -> pick = None -> s_pushed c = [] -> plain (s_said c) = [].
Proof using.
  intros c (up & dn & gone & Eu & _ & _ & []) K E. unfold tasks_ok in *. destruct (s_tasks c) as [|[d m|q live|] [|? ?]]; try contradiction.
  - apply g_tasks0.
  - apply g_tasks0.
  - destruct g_tasks0 as (_ & _ & P & _). specialize (P K). rewrite E in P. destruct P. discriminate.
  - destruct g_tasks0 as (_ & _ & P & _). specialize (P K). rewrite E in P. discriminate.
Qed.
Lemma short_stuck : forall c j, sys c -> len md < 4 -> s_move w go_tbl sp g tbl sid data md c (STask j) = None.
Proof using.
  clear Sid Snd Wd. intros c j (up & dn & gone & Eu & _ & _ & []) L. cbn [s_move]. destruct (CallModel.cut j (s_tasks c)) as [[[a t] b]|] eqn:C; [|reflexivity]. rewrite (cut_one _ _ _ _ _ C) in g_tasks0. destruct (single _ _ _ _ _ _ g_tasks0) as [-> ->]. cbn [app tasks_ok] in g_tasks0.
  destruct t as [d m|q live|]; [|destruct g_tasks0; lia|destruct g_tasks0; lia]. destruct g_tasks0 as (-> & -> & _). cbn [task_step]. unfold RustCallModel.find_handler, RustOpsModel.parse_metadata. replace (4 <=? len md) with false by lia. reflexivity.
Qed.
End Guest.

(** ** Running moves *)
Section Run.
Context {Hg Hr : Type}.
Context (w : site) (go_tbl : ikind -> list (option Hg)) (sp : bool) (g : fcfg) (tbl : list Hr) (sid : N) (data md : bytes).
Definition s_allowedb (m : smove) : bool :=
  match m with
  | SPush _ s => StreamProofs.sendableb (as_call s)
  | SUp bs => StreamProofs.foreignb sid bs && wfb bs
  | SDown bs => StreamProofs.foreignb sid bs
  | _ => true
  end.
Lemma s_allowedb_sound : forall m, s_allowedb m = true -> s_allowed sid m.
Proof using.
  intros m E. destruct m; cbn [s_allowedb s_allowed] in *; try exact Logic.I.
  - exact (StreamProofs.allowedb_sound sid (@stream_create unit 0 0) (MRCall 0 (as_call s)) E).
  - apply andb_true_iff in E. destruct E as [E1 E2]. split; [apply StreamProofs.foreignb_sound; exact E1|apply wfb_wf; exact E2].
  - apply StreamProofs.foreignb_sound. exact E.
Qed.
Fixpoint s_run (c : rconf Hg Hr) (ms : list smove) : option (rconf Hg Hr) :=
  match ms with
  | [] => Some c
  | m :: ms' => if s_allowedb m then match s_move w go_tbl sp g tbl sid data md c m with Some c' => s_run c' ms' | None => None end else None
  end.
Lemma s_run_reach : forall ms c c', s_reach w go_tbl sp g tbl sid data md c -> s_run c ms = Some c' -> s_reach w go_tbl sp g tbl sid data md c'.
Proof using.
  induction ms as [|m ms IH]; intros c c' R X; [injection X as <-; exact R|]. cbn [s_run] in X. destruct (s_allowedb m) eqn:A; [|discriminate X]. destruct (s_move w go_tbl sp g tbl sid data md c m) as [c1|] eqn:D; [|discriminate X].
  eapply IH; [|exact X]. eapply sr_move; [exact R|apply s_allowedb_sound; exact A|exact D].
Qed.
End Run.
