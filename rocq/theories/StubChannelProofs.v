(** Proofs about generated clients and wrappers of channel operations. *)
From Coq Require Import List NArith ZArith Bool Lia.
From Verif Require Import Base OutcomeModel FramesModel InvokeModel MonoModel FluxModel FluxSpec FluxProofs ProxyModel ProxySpec DispatchModel DispatchSpec ResponderModel ResponderSpec StreamModel StreamSpec StreamSides StreamWire StreamInv StreamProofs ChannelModel ChannelSpec ChannelProofs.
From Verif Require Import MsgpackModel MsgpackSpec MsgpackClient TransformModel TransformSpec TransformProofs StubStreamModel StubStreamSpec StubStreamProofs StubChannelModel StubChannelSpec.
From Verif Require CallModel StubModel StubProofs.
Import ListNotations.
Open Scope N_scope.

Section Typed.
Context (ki ko : kind).
Definition qi (it : qitem) : Prop := match it with QI it => wi ki it | QP _ => True end.
Definition qev (e : qevent) : Prop := match e with EI e => wev ki e | _ => True end.

Lemma qps : forall l, Forall qi (map QP l).
Proof. intros l. apply Forall_map, Forall_forall. intros; exact I. Qed.
Lemma qstep_typed : forall sp g sid data md p i it p' i' its new evs, qstep sp g sid data md p i it = Some (p', i', its, new, evs) -> qi it ->
  Forall qi its /\ Forall (Forall qi) new /\ Forall qev evs.
Proof.
  intros sp g sid data md p i it p' i' its new evs S W. destruct it as [it|it]; cbn [qstep] in S.
  - destruct (pstep _ _ _ _ _ it) as [[[[a b] c] d]|]; [|discriminate S]. injection S as <- <- <- <- <-. split; [|split].
    + apply Forall_app. split; [apply qps|]. destruct (opens d); [|apply Forall_nil]. apply Forall_cons; [|apply Forall_nil]. eexists; apply w_subscribe.
    + apply Forall_map, Forall_forall. intros. apply qps.
    + apply Forall_map, Forall_forall. intros; exact I.
  - destruct it as [it| | | |]; try discriminate S. destruct (rstep _ _ _ _ _ (RO it)) as [[[[a b] c] d]|] eqn:R; [|discriminate S]. injection S as <- <- <- <- <-.
    destruct (rstep_typed ki _ _ _ _ _ _ _ _ _ _ R W) as (A & B & C). split; [apply Forall_map; exact A|split; [|apply Forall_map; exact C]].
    apply Forall_map. eapply Forall_impl; [|exact B]. intros l F. apply Forall_map. exact F.
Qed.
Lemma qi_cut : forall {A} (P : A -> Prop) i ths l (x : list A) r, CallModel.cut i ths = Some (l, x, r) -> Forall (Forall P) ths -> Forall (Forall P) l /\ Forall P x /\ Forall (Forall P) r.
Proof. intros A P i ths l x r C F. destruct (cut_inv _ _ _ _ _ C) as [-> _]. apply Forall_app in F. destruct F as [X B]. inversion_clear B. tauto. Qed.
Lemma qi_join : forall {A} (P : A -> Prop) l (x : list A) r, Forall (Forall P) l -> Forall P x -> Forall (Forall P) r -> Forall (Forall P) (l ++ x :: r).
Proof. intros A P l x r X B C. apply Forall_app. split; [exact X|apply Forall_cons; assumption]. Qed.

Section Exec.
Context {H : Type}.
Context (wp wr : site) (tp tr : ikind -> list (option H)) (sp sr : bool) (g gin : fcfg) (sid op : N).
Notation stub_creach := (stub_creach wp wr tp tr sp sr g gin sid op ki ko).

Lemma stub_creach_creach : forall c, stub_creach c -> creach wp wr tp tr sp sr (client_cfg g) (client_cfg gin) sid [] (StubModel.stub_metadata op) c.
Proof. intros c R. induction R as [n m|c m c' R IH A S D]; [apply x_init|eapply x_move; eassumption]. Qed.

Definition tinv (c : cconf H) : Prop :=
  (Forall (Forall qi) (x_pths c) /\ Forall qev (x_ptr c)) /\ (Forall (Forall (wi ko)) (x_rths c) /\ Forall (wev ko) (x_rtr c)).
Ltac here := cbn [x_p x_i x_pths x_ptr x_rths x_rtr put_p put_r put_pths put_rths]; rewrite ?app_nil_r.
Lemma typed_cinv : forall c, stub_creach c -> tinv c.
Proof.
  intros c R. induction R as [n m|c m c' R [[PT PE] [RT RE]] A S D]; unfold tinv.
  - split; split; try apply Forall_nil; apply Forall_forall; intros x X; apply repeat_spec in X; subst x; (apply Forall_cons; [exact I|apply Forall_nil]).
  - unfold stub_channel in D. destruct m as [i f|i|i| | |j i|i f|i|i| | |j i|bs|bs]; cbn [do_cmove] in D.
    + destruct (CallModel.cut i (x_pths c)) as [[[l [|u stack]] rest]|] eqn:C; try discriminate D. destruct (is_quser u && qcall f) eqn:Q; [|discriminate D]. injection D as <-. here. split; [split; [|exact PE]|split; assumption].
      destruct (qi_cut qi _ _ _ _ _ C PT) as (X & Y & Z). apply qi_join; [exact X| |exact Z]. apply Forall_cons; [|exact Y].
      destruct f as [f|f]; [exact I|]. cbn [typed_move] in S. destruct f as [[| |c0| | | | | | | | |]| | | |]; try exact I; try (apply andb_prop in Q; destruct Q as [_ Q]; discriminate Q). exact S.
    + destruct (CallModel.cut i (x_pths c)) as [[[l [|u [|it stack]]] rest]|] eqn:C; try discriminate D. destruct (is_quser u); [|discriminate D]. injection D as <-. here. split; [split; [|exact PE]|split; assumption].
      destruct (qi_cut qi _ _ _ _ _ C PT) as (X & Y & Z). apply qi_join; [exact X| |exact Z]. inversion Y; assumption.
    + destruct (CallModel.cut i (x_pths c)) as [[[l [|it stack]] rest]|] eqn:C; try discriminate D. destruct (qstep _ _ _ _ _ _ _ it) as [[[[[p1 i1] its] new] evs]|] eqn:Q; [|discriminate D]. destruct (posts _ _) as [up|]; [|discriminate D]. injection D as <-. here.
      destruct (qi_cut qi _ _ _ _ _ C PT) as (X & Y & Z). inversion_clear Y as [|? ? Y1 Y2]. destruct (qstep_typed _ _ _ _ _ _ _ _ _ _ _ _ _ Q Y1) as (P & N & V). split; [split; [|apply Forall_app; split; assumption]|split; assumption].
      apply qi_join; [exact X|apply Forall_app; split; assumption|apply Forall_app; split; assumption].
    + destruct (x_pths c) as [|[|[[[]| |]|] []] us] eqn:E; try discriminate D. destruct (x_ptodo c); [|discriminate D]. destruct (x_down c) as [|bs dn]; [discriminate D|]. destruct (received _ _ _ _) as [l|e|]; [injection D as <-; here; rewrite ?E; split; split; assumption..|discriminate D].
    + destruct (x_pths c) as [|[|[[[]| |]|] []] us] eqn:E; try discriminate D. destruct (x_ptodo c) as [|[f0|r0|i0|k0 h0 i0 d0 m0 p0 n0|u0 q0|i0] todo]; try discriminate D; [|injection D as <-; here; rewrite ?E; split; split; assumption].
      inversion_clear PT as [|? ? PT1 PT2]. assert (PT' : Forall (Forall qi) ([QP (PI FUser)] :: us)) by (apply Forall_cons; assumption).
      destruct q0; cbn [net_call] in D; injection D as <-; here; rewrite ?E; (split; split; try assumption); (apply Forall_cons; [|assumption]); (apply Forall_cons; [exact I|assumption]).
    + destruct (CallModel.cut j (x_ptasks c)) as [[[a n] b]|]; [|discriminate D]. destruct (CallModel.cut i (x_pths c)) as [[[l [|u stack]] rest]|] eqn:C; try discriminate D. destruct (is_quser u); [|discriminate D]. injection D as <-. here.
      destruct (qi_cut qi _ _ _ _ _ C PT) as (X & Y & Z). split; [split; [|apply Forall_app; split; [assumption|apply Forall_cons; [exact I|apply Forall_nil]]]|split; assumption].
      apply qi_join; [exact X| |exact Z]. apply Forall_cons; [eexists; apply w_request|exact Y].
    + destruct (CallModel.cut i (x_rths c)) as [[[l [|u stack]] rest]|] eqn:C; try discriminate D. destruct (is_ruser u && hcall (ChannelModel.given c) f) eqn:Q; [|discriminate D]. injection D as <-. here. split; [split; assumption|split; [|exact RE]].
      destruct (qi_cut (wi ko) _ _ _ _ _ C RT) as (X & Y & Z). apply qi_join; [exact X| |exact Z]. apply Forall_cons; [|exact Y].
      cbn [typed_move] in S. destruct f as [[| |c0| | | | | | | | |]| | | |]; try exact I; try (apply andb_prop in Q; destruct Q as [_ Q]; discriminate Q). exact S.
    + destruct (CallModel.cut i (x_rths c)) as [[[l [|u [|it stack]]] rest]|] eqn:C; try discriminate D. destruct (is_ruser u); [|discriminate D]. injection D as <-. here. split; [split; assumption|split; [|exact RE]].
      destruct (qi_cut (wi ko) _ _ _ _ _ C RT) as (X & Y & Z). apply qi_join; [exact X| |exact Z]. inversion Y; assumption.
    + destruct (CallModel.cut i (x_rths c)) as [[[l [|it stack]] rest]|] eqn:C; try discriminate D. destruct (rstep _ _ _ _ _ it) as [[[[st its] new] evs]|] eqn:Rs; [|discriminate D]. destruct (posts _ _) as [up|]; [|discriminate D]. injection D as <-. here.
      destruct (qi_cut (wi ko) _ _ _ _ _ C RT) as (X & Y & Z). inversion_clear Y as [|? ? Y1 Y2]. destruct (rstep_typed ko _ _ _ _ _ _ _ _ _ _ Rs Y1) as (P & Q & V). split; [split; assumption|split; [|apply Forall_app; split; assumption]].
      apply qi_join; [exact X|apply Forall_app; split; assumption|apply Forall_app; split; assumption].
    + destruct (x_rths c) as [|[|[[]| | | |] []] us] eqn:E; try discriminate D. destruct (x_rtodo c); [|discriminate D]. destruct (x_up c) as [|bs dn]; [discriminate D|]. destruct (received _ _ _ _) as [l|e|]; [injection D as <-; here; rewrite ?E; split; split; assumption..|discriminate D].
    + destruct (x_rths c) as [|[|[[]| | | |] []] us] eqn:E; try discriminate D. destruct (x_rtodo c) as [|[f0|r0|i0|k0 h0 i0 d0 m0 p0 n0|u0 q0|i0] todo]; try discriminate D; try (injection D as <-; here; rewrite ?E; split; split; assumption).
      * destruct k0; try discriminate D. injection D as <-; here; rewrite ?E; split; split; assumption.
      * destruct q0; injection D as <-; here; rewrite ?E; (split; split; try assumption); inversion_clear RT; apply Forall_cons; try assumption; (apply Forall_cons; [exact I|assumption]).
    + destruct (CallModel.cut j (x_tasks c)) as [[[a t] b]|]; [|discriminate D]. destruct t.
      * destruct (posts _ _); [|discriminate D]. injection D as <-; here; split; split; assumption.
      * injection D as <-; here; split; split; assumption.
      * destruct (CallModel.cut i (x_rths c)) as [[[l [|u stack]] rest]|] eqn:C; try discriminate D. destruct (is_ruser u); [|discriminate D]. injection D as <-. here. split; [split; assumption|split; [|exact RE]].
        destruct (qi_cut (wi ko) _ _ _ _ _ C RT) as (X & Y & Z). apply qi_join; [exact X| |exact Z]. apply Forall_cons; [exact I|]. apply Forall_cons; [exact I|exact Y].
      * destruct (CallModel.cut i (x_rths c)) as [[[l [|u stack]] rest]|] eqn:C; try discriminate D. destruct (is_ruser u); [|discriminate D]. injection D as <-. here. split; [split; assumption|split; [|exact RE]].
        destruct (qi_cut (wi ko) _ _ _ _ _ C RT) as (X & Y & Z). apply qi_join; [exact X| |exact Z]. apply Forall_cons; [exact I|exact Y].
    + injection D as <-. split; split; assumption.
    + injection D as <-. split; split; assumption.
Qed.
Lemma calls_typed : forall k l, Forall (wev k) l -> exists cs, Forall2 (wired k) cs (out_calls l).
Proof.
  intros k l E. unfold out_calls. induction E as [|e l W E [cs IH]]; [exists []; constructor|]. cbn [flat_map].
  destruct e as [[c0| | | | | | | |]| | |]; try (exists cs; exact IH). destruct W as [c1 W]. exists (c1 :: cs). constructor; assumption.
Qed.
Lemma out_typed : forall c, stub_creach c -> exists cs, Forall2 (wired ko) cs (out_emitted c).
Proof. intros c R. destruct (typed_cinv c R) as [_ [_ E]]. exact (calls_typed ko _ E). Qed.
Lemma in_typed : forall c, stub_creach c -> exists cs, Forall2 (wired ki) cs (in_emitted c).
Proof.
  intros c R. destruct (typed_cinv c R) as [[_ E] _]. apply calls_typed. induction E as [|e l W E IH]; [constructor|]. cbn [flat_map]. destruct e; cbn [app]; [exact IH| |exact IH]. constructor; assumption.
Qed.
End Exec.
End Typed.

Lemma wired_prefix : forall k cs a b, Forall2 (wired k) cs (a ++ b) -> exists cs1 cs2, cs = cs1 ++ cs2 /\ Forall2 (wired k) cs1 a.
Proof.
  intros k cs a b F. apply Forall2_app_inv_r in F. destruct F as (l1 & l2 & A & _ & ->). exists l1, l2. split; [reflexivity|exact A].
Qed.
Lemma channel_names : forall {H} (t : ikind -> list (option H)) op h, op < 2^32 -> names t RC (StubModel.stub_metadata op) h <-> nth_error (t RC) (N.to_nat op) = Some (Some h).
Proof. intros H t op h L. exact (StubProofs.stub_names (fun _ => t RC) op h L). Qed.

(** ** Running moves *)
Lemma stub_crun : forall {H} wp wr (tp tr : ikind -> list (option H)) sp sr g gin sid op ki ko ms c c', stub_creach wp wr tp tr sp sr g gin sid op ki ko c -> Forall (typed_move ki ko) ms ->
  run_cmoves wp wr tp tr sp sr (client_cfg g) (client_cfg gin) sid [] (StubModel.stub_metadata op) c ms = Some c' -> stub_creach wp wr tp tr sp sr g gin sid op ki ko c'.
Proof.
  intros H wp wr tp tr sp sr g gin sid op ki ko ms. induction ms as [|m ms IH]; intros c c' R S X; [injection X as <-; exact R|]. cbn [run_cmoves] in X. inversion_clear S as [|? ? S1 S2].
  destruct (callowedb sid c m) eqn:A; [|discriminate X]. destruct (do_cmove _ _ _ _ _ _ _ _ _ _ _ c m) as [c1|] eqn:D; [|discriminate X].
  eapply IH; [|exact S2|exact X]. eapply sc_move; [exact R|apply callowedb_sound; exact A|exact S1|exact D].
Qed.
