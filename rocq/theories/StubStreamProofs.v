(** Proofs about generated clients of streaming operations. *)
From Coq Require Import List NArith ZArith Bool Lia.
From Verif Require Import Base OutcomeModel FramesModel InvokeModel MonoModel FluxModel FluxSpec FluxProofs ProxyModel ProxySpec DispatchModel DispatchSpec ResponderModel ResponderSpec StreamModel StreamSpec StreamSides StreamWire StreamInv StreamProofs.
From Verif Require Import MsgpackModel MsgpackSpec MsgpackClient TransformModel TransformSpec TransformProofs StubStreamModel StubStreamSpec.
From Verif Require CallModel CallInv StubModel StubSpec StubProofs.
Import ListNotations.
Open Scope N_scope.

Section Typed.
Context (k : kind).
Definition typed (c : fcall pay bytes) : Prop := exists c', wired k c' c.
Definition wi (it : ritem) : Prop := match it with RO (FDo c) => typed c | RO (FEmit _ (VCall _)) => False | _ => True end.
Definition wev (e : revent) : Prop := match e with ROV (VCall c) => typed c | _ => True end.

Definition fi (it : fitem pay bytes) : Prop := match it with FDo c => typed c | FEmit _ (VCall _) => False | _ => True end.
Definition fev (e : fevent pay bytes) : Prop := match e with VCall c => typed c | _ => True end.
Ltac fin := repeat split; repeat (apply Forall_cons; [first [exact I|assumption|apply Forall_cons; [exact I|apply Forall_nil]]|]); try apply Forall_nil.
Lemma fstep_typed : forall sr g st it st' its new evs, fstep sr g st it = Some (st', its, new, evs) -> fi it -> Forall fi its /\ Forall (Forall fi) new /\ Forall fev evs.
Proof.
  intros sr g st it st' its new evs S W. destruct it as [|n|c|c|b e| | |n|n|n|s|s]; cbn [fstep] in S; try discriminate S.
  - cbn [fi] in W. destruct c; cbn [negb] in S.
    + destruct (f_sub st); [discriminate S|]. injection S as <- <- <- <-. fin.
    + destruct (f_sub st && f_closed st); injection S as <- <- <- <-; fin.
    + destruct (f_sub st); [|discriminate S]. cbn [negb] in S. destruct (f_closed st); injection S as <- <- <- <-; fin.
    + destruct (f_sub st); [|discriminate S]. cbn [negb] in S. destruct (f_closed st); injection S as <- <- <- <-; fin.
    + destruct (f_sub st); [|discriminate S]. cbn [negb] in S. destruct (f_closed st); injection S as <- <- <- <-; fin.
    + destruct (f_sub st); [|discriminate S]. cbn [negb] in S. destruct (f_closed st); injection S as <- <- <- <-; fin.
    + destruct (f_sub st); [|discriminate S]. injection S as <- <- <- <-. fin.
    + destruct (f_sub st); [|discriminate S]. injection S as <- <- <- <-. fin.
    + destruct (f_sub st); [|discriminate S]. injection S as <- <- <- <-. fin.
  - destruct c; try discriminate S; injection S as <- <- <- <-; try (destruct (0 <? f_n st)%Z); fin.
  - destruct b; [|injection S as <- <- <- <-; fin]. destruct e; try (exfalso; exact W); injection S as <- <- <- <-; fin.
  - injection S as <- <- <- <-. destruct (f_n st =? 0)%Z; fin.
  - injection S as <- <- <- <-. destruct (k_norequest g); [fin|]. destruct (k_request g); fin.
  - injection S as <- <- <- <-. destruct (f_req st); fin.
  - destruct sr; injection S as <- <- <- <-; fin.
  - destruct (f_req st); [|discriminate S]. injection S as <- <- <- <-. fin.
  - injection S as <- <- <- <-. fin.
  - injection S as <- <- <- <-. repeat split; try apply Forall_nil. apply Forall_map, Forall_forall. intros; exact I.
Qed.
Lemma lift_items : forall l, Forall fi l -> Forall wi (map RO l).
Proof. intros l F. apply Forall_map. eapply Forall_impl; [|exact F]. intros it W. destruct it; exact W || exact I. Qed.
Lemma lift_news : forall l, Forall (Forall fi) l -> Forall (Forall wi) (map (map RO) l).
Proof. intros l F. apply Forall_map. eapply Forall_impl; [|exact F]. intros a. apply lift_items. Qed.
Lemma lift_evs : forall l, Forall fev l -> Forall wev (map ROV l).
Proof. intros l F. apply Forall_map. eapply Forall_impl; [|exact F]. intros e W. destruct e; exact W || exact I. Qed.
Lemma in_items : forall l, Forall wi (map RI l).
Proof. intros l. apply Forall_map, Forall_forall. intros; exact I. Qed.
Lemma in_news : forall l, Forall (Forall wi) (map (map RI) l).
Proof. intros l. apply Forall_map, Forall_forall. intros; apply in_items. Qed.
Lemma in_evs : forall l, Forall wev (map RIV l).
Proof. intros l. apply Forall_map, Forall_forall. intros; exact I. Qed.

Lemma out_step : forall sr st it st' its new evs,
  match fstep sr resp_cfg (r_out st) it with
  | Some (fl, its, new, evs) => Some (mkR fl (r_in st) (r_sub st), map RO its, map (map RO) new, map ROV evs)
  | None => None
  end = Some (st', its, new, evs) -> fi it -> Forall wi its /\ Forall (Forall wi) new /\ Forall wev evs.
Proof.
  intros sr st it st' its new evs S W. destruct (fstep sr resp_cfg (r_out st) it) as [[[[fl a] b] c]|] eqn:F; [|discriminate S]. injection S as <- <- <- <-.
  destruct (fstep_typed _ _ _ _ _ _ _ _ F W) as (A & B & C). split; [apply lift_items, A|split; [apply lift_news, B|apply lift_evs, C]].
Qed.
Lemma rstep_typed : forall sr gi sid n st it st' its new evs, rstep sr gi sid n st it = Some (st', its, new, evs) -> wi it ->
  Forall wi its /\ Forall (Forall wi) new /\ Forall wev evs.
Proof.
  intros sr gi sid n st it st' its new evs S W.
  assert (T1 : typed FSubscribe) by (eexists; constructor). assert (T2 : forall m, typed (FRequest m)) by (intro; eexists; constructor).
  destruct it as [it|it| | |c].
  - assert (Wf : fi it) by (destruct it; exact W || exact I). destruct it as [|m|c|c|[] e| | |m|m|m|s|s]; cbn [rstep] in S; try (match type of Wf with fi ?x => exact (out_step sr st x _ _ _ _ S Wf) end).
    destruct (frame_of sid e) as [f|] eqn:Fr; [|match type of Wf with fi ?x => exact (out_step sr st x _ _ _ _ S Wf) end].
    injection S as <- <- <- <-. destruct e; try discriminate Fr; fin.
  - assert (G : forall x, match fstep sr gi (r_in st) x with
      | Some (fl, its0, new0, evs0) => Some (mkR (r_out st) fl (r_sub st), map RI its0, map (map RI) new0, map RIV evs0) | None => None end = Some (st', its, new, evs) ->
      Forall wi its /\ Forall (Forall wi) new /\ Forall wev evs).
    { intros x X. destruct (fstep sr gi (r_in st) x) as [[[[fl a] b] c]|]; [|discriminate X]. injection X as <- <- <- <-. split; [apply in_items|split; [apply in_news|apply in_evs]]. }
    destruct it as [|m|c|c|b e| | |m|m|m|s|s]; try lazymatch type of S with rstep _ _ _ _ _ (RI ?x) = _ => exact (G x S) end.
    + destruct c; try lazymatch type of S with rstep _ _ _ _ _ (RI ?x) = _ => exact (G x S) end. cbn [rstep] in S. destruct (fstep sr gi (r_in st) (FDo FSubscribe)) as [[[[fl a] b] c]|]; [|discriminate S]. injection S as <- <- <- <-.
      split; [fin|split; [apply Forall_nil|apply in_evs]].
    + destruct b; [|lazymatch type of S with rstep _ _ _ _ _ (RI ?x) = _ => exact (G x S) end]. destruct e; try lazymatch type of S with rstep _ _ _ _ _ (RI ?x) = _ => exact (G x S) end; injection S as <- <- <- <-; fin.
  - injection S as <- <- <- <-. fin.
  - injection S as <- <- <- <-. fin. apply Forall_cons; [apply T2|apply Forall_nil].
  - destruct c; cbn [rstep] in S; [destruct (r_sub st)|destruct (f_sub (r_in st))..]; try discriminate S; injection S as <- <- <- <-; fin; apply Forall_cons; [apply T2|apply Forall_nil].
Qed.

Lemma wi_cut : forall i ths l (x : list ritem) r, CallModel.cut i ths = Some (l, x, r) -> Forall (Forall wi) ths -> Forall (Forall wi) l /\ Forall wi x /\ Forall (Forall wi) r.
Proof. intros i ths l x r C F. destruct (cut_inv _ _ _ _ _ C) as [-> _]. apply Forall_app in F. destruct F as [A B]. inversion_clear B. tauto. Qed.
Lemma wi_join : forall l (x : list ritem) r, Forall (Forall wi) l -> Forall wi x -> Forall (Forall wi) r -> Forall (Forall wi) (l ++ x :: r).
Proof. intros l x r A B C. apply Forall_app. split; [exact A|apply Forall_cons; assumption]. Qed.

Section Exec.
Context {H : Type}.
Context (wp wr : site) (tp tr : ikind -> list (option H)) (sp sr : bool) (g : fcfg) (sid : N) (data md : bytes).
Notation stub_sreach := (stub_sreach wp wr tp tr sp sr g sid data md k).

Lemma stub_sreach_sreach : forall c, stub_sreach c -> sreach wp wr tp tr sp sr (client_cfg g) sid data md c.
Proof. intros c R. induction R as [n m|c m c' R IH A S D]; [apply s_init|eapply s_move; eassumption]. Qed.

Lemma typed_inv : forall c, stub_sreach c -> Forall (Forall wi) (c_rths c) /\ Forall wev (c_rtr c).
Proof.
  intros c R. induction R as [n m|c m c' R [IT IE] A S D].
  - split; [|apply Forall_nil]. apply Forall_forall. intros x X. apply repeat_spec in X. subst x. apply Forall_cons; [exact I|apply Forall_nil].
  - destruct m as [i f|i|i| | |i f|i|i| | |j i|bs|bs]; cbn [StreamModel.do_move] in D.
    + destruct (CallModel.cut i (c_pths c)) as [[[l [|[[]| |] stack]] rest]|]; try discriminate D. destruct (pcalls f); [|discriminate D]. injection D as <-. split; assumption.
    + destruct (CallModel.cut i (c_pths c)) as [[[l [|[[]| |] [|it stack]]] rest]|]; try discriminate D. injection D as <-. split; assumption.
    + destruct (CallModel.cut i (c_pths c)) as [[[l [|it stack]] rest]|]; try discriminate D. destruct (pstep _ _ _ _ _ it) as [[[[st its] new] evs]|]; [|discriminate D]. destruct (posts _ _) as [up|]; [|discriminate D]. injection D as <-. split; assumption.
    + destruct (c_pths c) as [|[|[[]| |] []] us]; try discriminate D. destruct (c_ptodo c); [|discriminate D]. destruct (c_down c) as [|bs dn]; [discriminate D|]. destruct (received _ _ _ _) as [l|e|]; [injection D as <-; split; assumption..|discriminate D].
    + destruct (c_pths c) as [|[|[[]| |] []] us]; try discriminate D. destruct (c_ptodo c) as [|[]]; try discriminate D; [|injection D as <-; split; assumption]. destruct (net_call _); [|discriminate D]. injection D as <-. split; assumption.
    + destruct (CallModel.cut i (c_rths c)) as [[[l [|u stack]] rest]|] eqn:C; try discriminate D. destruct (is_ruser u && rcalls f); [|discriminate D]. injection D as <-. cbn [c_rths c_rtr set_rths set_r]. rewrite app_nil_r. split; [|exact IE].
      destruct (wi_cut _ _ _ _ _ C IT) as (X & Y & Z). apply wi_join; [exact X| |exact Z]. apply Forall_cons; [exact S|exact Y].
    + destruct (CallModel.cut i (c_rths c)) as [[[l [|u [|it stack]]] rest]|] eqn:C; try discriminate D. destruct (is_ruser u); [|discriminate D]. injection D as <-. cbn [c_rths c_rtr set_rths set_r]. rewrite app_nil_r. split; [|exact IE].
      destruct (wi_cut _ _ _ _ _ C IT) as (X & Y & Z). apply wi_join; [exact X| |exact Z]. inversion Y; assumption.
    + destruct (CallModel.cut i (c_rths c)) as [[[l [|it stack]] rest]|] eqn:C; try discriminate D. destruct (rstep _ _ _ _ _ it) as [[[[st its] new] evs]|] eqn:Rs; [|discriminate D]. destruct (posts _ _) as [up|]; [|discriminate D]. injection D as <-. cbn [c_rths c_rtr set_rths set_r].
      destruct (wi_cut _ _ _ _ _ C IT) as (X & Y & Z). inversion_clear Y as [|? ? Y1 Y2]. destruct (rstep_typed _ _ _ _ _ _ _ _ _ _ Rs Y1) as (P & Q & V). split; [|apply Forall_app; split; assumption].
      apply wi_join; [exact X|apply Forall_app; split; assumption|apply Forall_app; split; assumption].
    + destruct (c_rths c) as [|[|[[]| | | |] []] us] eqn:E; try discriminate D. destruct (c_rtodo c); [|discriminate D]. destruct (c_up c) as [|bs dn]; [discriminate D|]. destruct (received _ _ _ _) as [l|e|]; [injection D as <-; cbn [c_rths c_rtr set_rths set_r]; rewrite ?app_nil_r; split; rewrite ?E; assumption..|discriminate D].
    + destruct (c_rths c) as [|[|[[]| | | |] []] us] eqn:E; try discriminate D. destruct (c_rtodo c) as [|[]]; try discriminate D; try (injection D as <-; cbn [c_rths c_rtr set_rths set_r]; rewrite ?app_nil_r; split; rewrite ?E; assumption).
      * destruct k0; try discriminate D. injection D as <-; cbn [c_rths c_rtr set_rths set_r]; rewrite ?app_nil_r; split; rewrite ?E; assumption.
      * destruct c0; injection D as <-; cbn [c_rths c_rtr set_rths set_r]; rewrite ?app_nil_r; split; rewrite ?E; try assumption; inversion_clear IT; apply Forall_cons; try assumption; (apply Forall_cons; [exact I|assumption]).
    + destruct (CallModel.cut j (c_tasks c)) as [[[a t] b]|]; [|discriminate D]. destruct t.
      * destruct (posts _ _); [|discriminate D]. injection D as <-; cbn [c_rths c_rtr set_rths set_r]; rewrite ?app_nil_r; split; assumption.
      * injection D as <-; cbn [c_rths c_rtr set_rths set_r]; rewrite ?app_nil_r; split; assumption.
      * destruct (CallModel.cut i (c_rths c)) as [[[l [|u stack]] rest]|] eqn:C; try discriminate D. destruct (is_ruser u); [|discriminate D]. injection D as <-. cbn [c_rths c_rtr set_rths set_r]. rewrite app_nil_r. split; [|exact IE].
        destruct (wi_cut _ _ _ _ _ C IT) as (X & Y & Z). apply wi_join; [exact X| |exact Z]. apply Forall_cons; [exact I|exact Y].
      * destruct (CallModel.cut i (c_rths c)) as [[[l [|u stack]] rest]|] eqn:C; try discriminate D. destruct (is_ruser u); [|discriminate D]. injection D as <-. cbn [c_rths c_rtr set_rths set_r]. rewrite app_nil_r. split; [|exact IE].
        destruct (wi_cut _ _ _ _ _ C IT) as (X & Y & Z). apply wi_join; [exact X| |exact Z]. apply Forall_cons; [exact I|exact Y].
    + injection D as <-. split; assumption.
    + injection D as <-. split; assumption.
Qed.
Lemma emitted_typed : forall c, stub_sreach c -> exists cs, Forall2 (wired k) cs (emitted c).
Proof.
  intros c R. destruct (typed_inv c R) as [_ E]. unfold emitted, out_calls. induction E as [|e l W E [cs IH]]; [exists []; constructor|]. cbn [flat_map].
  destruct e as [[c0| | | | | | | |]| | |]; try (exists cs; exact IH). destruct W as [c1 W]. exists (c1 :: cs). constructor; assumption.
Qed.

Context (f64to32 : N -> N) (pt : bytes -> option gtime) (text : rerr -> bytes).
Lemma wired_closes : forall c c', wired k c c' -> closes c = closes c'.
Proof. intros c c' []; reflexivity. Qed.
Lemma wired_delivers : forall c c', wired k c c' -> map_delivers (decode_item f64to32 pt text k) g c' = delivers g c.
Proof.
  intros c c' []; try reflexivity. cbn [map_delivers delivers]. unfold decode_item. destruct (transform_round f64to32 pt s H1 H2) as (d & E1 & E2). unfold encode_item in H3. rewrite E1 in H3. injection H3 as <-. cbn [fst]. rewrite <- H0, E2. reflexivity.
Qed.
Lemma wired_expected : forall cs cs', Forall2 (wired k) cs cs' -> map_expected (decode_item f64to32 pt text k) g cs' = expected g cs.
Proof.
  intros cs cs' F. unfold map_expected, expected. induction F as [|c c' cs cs' W F IH]; [reflexivity|]. cbn [upto]. rewrite (wired_closes _ _ W). destruct (closes c').
  - cbn [flat_map]. rewrite (wired_delivers _ _ W). reflexivity.
  - cbn [flat_map]. rewrite (wired_delivers _ _ W), IH. reflexivity.
Qed.
Lemma user_seen_seen : forall c : conf H, user_seen g f64to32 pt text k c = flat_map (fun e => delivered (fmap_event (decode_item f64to32 pt text k) g e)) (seen c).
Proof. intro c. apply map_delivered. Qed.
Lemma client_expected : forall l, flat_map (fun e => delivered (fmap_event (decode_item f64to32 pt text k) g e)) (expected (client_cfg g) l) = map_expected (decode_item f64to32 pt text k) g l.
Proof. intro l. exact (map_expected_eq (decode_item f64to32 pt text k) g (k_request g) (k_norequest g) l). Qed.
End Exec.
End Typed.

(** ** Arguments and numbers *)
Lemma stream_given : forall f64to32 pt text sc e sc' z data, StubSpec.callable sc e -> NoDup (map fst sc') -> StubSpec.readable sc e sc' -> codec_encode sc e = Ret data ->
  stream_wrapper f64to32 pt text sc' z data = inl (given sc e sc' z).
Proof.
  intros f64to32 pt text sc e sc' z data C ND Rd E. rewrite (StubProofs.codec_bytes pt _ _ C) in E. injection E as <-. unfold stream_wrapper.
  edestruct (StubProofs.evolve f64to32 pt sc sc' e z) as (e' & -> & V); [exact C|exact ND|exact Rd|rewrite app_length; apply le_S, Nat.le_add_r|].
  f_equal. unfold given. apply map_ext_in. intros f Hf. rewrite V.
  destruct (in_dec (list_eq_dec N.eq_dec) (fst f) (map fst sc)); [|reflexivity].
  destruct (in_dec (list_eq_dec N.eq_dec) (fst f) (map fst sc')); [reflexivity|]. contradiction n. apply in_map. exact Hf.
Qed.
Lemma stream_names : forall {H} (t : ikind -> list (option H)) op h, op < 2^32 -> names t RS (StubModel.stub_metadata op) h <-> nth_error (t RS) (N.to_nat op) = Some (Some h).
Proof. intros H t op h L. exact (StubProofs.stub_names (fun _ => t RS) op h L). Qed.

(** ** Running moves *)
Lemma stub_run : forall {H} wp wr (tp tr : ikind -> list (option H)) sp sr g sid data md k ms c c', stub_sreach wp wr tp tr sp sr g sid data md k c -> Forall (served k) ms ->
  run_moves wp wr tp tr sp sr (client_cfg g) sid data md c ms = Some c' -> stub_sreach wp wr tp tr sp sr g sid data md k c'.
Proof.
  intros H wp wr tp tr sp sr g sid data md k ms. induction ms as [|m ms IH]; intros c c' R S X; [injection X as <-; exact R|]. cbn [run_moves] in X. inversion_clear S as [|? ? S1 S2].
  destruct (allowedb sid c m) eqn:A; [|discriminate X]. destruct (StreamModel.do_move _ _ _ _ _ _ _ _ _ _ c m) as [c1|] eqn:D; [|discriminate X].
  eapply IH; [|exact S2|exact X]. eapply ss_move; [exact R|apply allowedb_sound; exact A|exact S1|exact D].
Qed.
