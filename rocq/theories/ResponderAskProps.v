(** C40, continued: the demand a responder passes on to the flux its handler returned. *)
From Coq Require Import List NArith ZArith Bool Lia Permutation.
From Verif Require Import Base FramesModel MonoModel FluxModel FluxSpec ProxyModel ResponderModel ResponderSpec ResponderExec ResponderAskSpec ResponderAskProofs.
Import ListNotations.

(** Whatever the threads, sources, handlers and frames: when the responder has nothing left to do, the requests made on the handler's flux are initialN
    (if it was subscribed) and the number of each RequestN frame handed to the stream, each once and none else. *)
Theorem C40_demand : forall sync gin sid initial st ths tr, ask_reach sync gin sid initial st ths tr -> existsb unasked (concat ths) = false ->
  Permutation (requests tr) ((if begun tr then [Z.of_N initial] else []) ++ wished tr).
Proof. exact ask_all. Qed.
Print Assumptions C40_demand.

(** And at no moment has it been asked for anything else. *)
Theorem C40_demand_only : forall sync gin sid initial st ths tr, ask_reach sync gin sid initial st ths tr ->
  exists later, Permutation (requests tr ++ later) ((if begun tr then [Z.of_N initial] else []) ++ wished tr).
Proof. exact ask_never_more. Qed.
Print Assumptions C40_demand_only.

(** Schedules. *)
Definition off_hands (m : rmove) : bool := match m with WCall _ c => hands_off c | _ => true end.
Section Exec.
Context (sync : bool) (gin : fcfg) (sid initial : N).
Definition aok (x : rconf) : Prop := let '(st, ths, tr) := x in ask_reach sync gin sid initial st ths tr.
Lemma astep_sound : forall n x y, aok x -> do_rstep sync gin sid initial false n x = Some y -> aok y.
Proof.
  intros n [[st ths] tr] y R D. cbn [do_rstep] in D. destruct (rat n ths) as [[[l [|it s]] q]|] eqn:A; try discriminate D. apply rat_spec in A. subst ths. cbn [andb] in D.
  destruct (rstep sync gin sid initial st it) as [[[[st2 its] new] evs]|] eqn:S; [|discriminate D]. injection D as <-. eapply a_step; [exact R|exact S].
Qed.
Lemma aexec_sound : forall ms x y, aok x -> forallb off_hands ms = true -> rexec sync gin sid initial false ms x = Some y -> aok y.
Proof.
  induction ms as [|m ms IH]; intros x y R O H; [cbn in H; congruence|]. cbn [forallb] in O. apply andb_true_iff in O as [O1 O2]. cbn [rexec] in H.
  destruct (do_rmove sync gin sid initial false m x) as [z|] eqn:D; [|discriminate H]. apply (IH z); [|exact O2|exact H]. clear IH H. destruct m as [n c|n|n|n].
  - destruct x as [[st ths] tr]. cbn [do_rmove] in D. destruct (rat n ths) as [[[l [|u s]] q]|] eqn:A; try discriminate D. apply rat_spec in A. subst ths.
    destruct (is_ruser u && rcall c) eqn:C; [|discriminate D]. apply andb_true_iff in C. destruct C as [C1 C2]. injection D as <-. apply a_call; assumption.
  - destruct x as [[st ths] tr]. cbn [do_rmove] in D. destruct (rat n ths) as [[[l [|u s]] q]|] eqn:A; try discriminate D. apply rat_spec in A. subst ths.
    destruct s as [|i s]; [discriminate D|]. destruct (is_ruser u) eqn:C; [|discriminate D]. injection D as <-. eapply a_return; [exact R|exact C|discriminate].
  - destruct x as [[st ths] tr]. exact (astep_sound n _ z R D).
  - assert (Y : forall k x, aok x -> aok (rsettle sync gin sid initial false k n x)).
    { induction k as [|k IH]; intros w Rw; [exact Rw|]. cbn [rsettle]. destruct (do_rstep sync gin sid initial false n w) as [v|] eqn:Dw; [|exact Rw]. apply IH. exact (astep_sound n w v Rw Dw). }
    specialize (Y rgo_fuel x R). destruct x as [[st ths] tr]. unfold do_rmove in D. remember (rsettle sync gin sid initial false rgo_fuel n (st, ths, tr)) as w. assert (w = z) by congruence. subst z. exact Y.
Qed.
End Exec.

(** A guest: initialN is 3; two more RequestN frames arrive, one inside the source's Request. *)
Example C40_demand_ex : exists st tr, ask_reach true resp_cfg 9 3 st [[RO FUser]] tr /\ requests tr = [3; 0; 70]%Z /\ begun tr = true /\ wished tr = [0; 70]%Z.
Proof.
  destruct (rexec true resp_cfg 9 3 false [WCall 0 RStart; WGo 0; WCall 0 (RO (FDo (FOnSubscribe true true))); WGo 0; WRet 0; WGo 0; WRet 0; WGo 0; WCall 0 (RNetDo (RNRequest 0)); WGo 0;
    WCall 0 (RNetDo (RNRequest 70)); WGo 0; WRet 0; WGo 0; WRet 0] (responder_create, [[RO FUser]], [])) as [[[st ths] tr]|] eqn:X; [|vm_compute in X; discriminate X].
  assert (R := fun O => aexec_sound true resp_cfg 9 3 _ (responder_create, repeat [RO FUser] 1, []) _ (a_init true resp_cfg 9 3 1) O X). specialize (R eq_refl). vm_compute in X. injection X as <- <- <-. eexists; eexists. split; [exact R|]. split; [reflexivity|]. split; reflexivity.
Qed.
(** On a host, with initialN not yet passed on. *)
Example C40_demand_only_ex : exists st ths tr, ask_reach false resp_cfg 9 3 st ths tr /\ requests tr = [] /\ begun tr = true /\ existsb unasked (concat ths) = true.
Proof.
  destruct (rexec false resp_cfg 9 3 false [WCall 0 RStart; WGo 0] (responder_create, [[RO FUser]], [])) as [[[st ths] tr]|] eqn:X; [|vm_compute in X; discriminate X].
  assert (R := fun O => aexec_sound false resp_cfg 9 3 _ (responder_create, repeat [RO FUser] 1, []) _ (a_init false resp_cfg 9 3 1) O X). specialize (R eq_refl). vm_compute in X. injection X as <- <- <-. eexists; eexists; eexists. split; [exact R|]. split; [reflexivity|]. split; reflexivity.
Qed.
