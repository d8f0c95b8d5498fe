(** Schedules of the responder, for examples. *)
From Coq Require Import List NArith ZArith Bool.
From Verif Require Import Base FramesModel MonoModel FluxModel ProxyModel ResponderModel.
Import ListNotations.

Section Exec.
Context (sync : bool) (gin : fcfg) (sid initial : N) (serial : bool).
Inductive rmove := WCall (n : nat) (c : ritem) | WRet (n : nat) | WStep (n : nat) | WGo (n : nat).
Definition rconf : Type := rst * list (list ritem) * list revent.
Definition rat (n : nat) (ths : list (list ritem)) := match nth_error ths n with Some s => Some (firstn n ths, s, skipn (S n) ths) | None => None end.
Definition do_rstep (n : nat) (x : rconf) : option rconf :=
  let '(st, ths, tr) := x in
  match rat n ths with
  | Some (l, it :: s, q) =>
    if serial && begins it && negb (idle ths) then None else
    match rstep sync gin sid initial st it with Some (st', its, new, evs) => Some (st', l ++ (its ++ s) :: q ++ new, tr ++ evs) | None => None end
  | _ => None
  end.
Fixpoint rsettle (fuel n : nat) (x : rconf) : rconf := match fuel with O => x | S k => match do_rstep n x with Some y => rsettle k n y | None => x end end.
Definition rgo_fuel : nat := 40.
Definition do_rmove (m : rmove) (x : rconf) : option rconf :=
  let '(st, ths, tr) := x in
  match m with
  | WCall n c => match rat n ths with Some (l, u :: s, q) => if is_ruser u && rcall c then Some (st, l ++ (c :: u :: s) :: q, tr) else None | _ => None end
  | WRet n => match rat n ths with Some (l, u :: (i :: s), q) => if is_ruser u then Some (st, l ++ (i :: s) :: q, tr) else None | _ => None end
  | WStep n => do_rstep n x
  | WGo n => Some (rsettle rgo_fuel n x)
  end.
Fixpoint rexec (ms : list rmove) (x : rconf) : option rconf :=
  match ms with [] => Some x | m :: ms' => match do_rmove m x with Some y => rexec ms' y | None => None end end.
Lemma rat_spec : forall n ths l s q, rat n ths = Some (l, s, q) -> ths = l ++ s :: q.
Proof.
  intros n ths l s q H. unfold rat in H. destruct (nth_error ths n) as [x|] eqn:X; [|discriminate]. injection H as <- <- <-.
  revert n X. induction ths as [|a ths IH]; intros [|n] X; try discriminate; cbn in X |- *; [congruence|]. f_equal. apply IH. exact X.
Qed.
Definition rok (x : rconf) : Prop := let '(st, ths, tr) := x in rreach sync gin sid initial serial st ths tr.
Lemma rok_start : forall n, rok (responder_create, repeat [RO FUser] n, []).
Proof. intro n. exact (r_init sync gin sid initial serial n). Qed.
Lemma step_sound : forall n x y, rok x -> do_rstep n x = Some y -> rok y.
Proof.
  intros n [[st ths] tr] y R D. cbn [do_rstep] in D. destruct (rat n ths) as [[[l [|it s]] q]|] eqn:A; try discriminate D. apply rat_spec in A. subst ths.
  destruct (serial && begins it && negb (idle (l ++ (it :: s) :: q))) eqn:G; [discriminate D|].
  destruct (rstep sync gin sid initial st it) as [[[[st2 its] new] evs]|] eqn:S; [|discriminate D]. injection D as <-. eapply r_step; [exact R|exact S|]. intros -> B. rewrite B in G. apply negb_false_iff. exact G.
Qed.
Lemma settle_sound : forall k n x, rok x -> rok (rsettle k n x).
Proof. induction k as [|k IH]; intros n x R; [exact R|]. cbn [rsettle]. destruct (do_rstep n x) as [y|] eqn:D; [|exact R]. apply IH. exact (step_sound n x y R D). Qed.
Lemma rexec_sound : forall ms x y, rok x -> rexec ms x = Some y -> rok y.
Proof.
  induction ms as [|m ms IH]; intros x y R H; [cbn in H; congruence|]. cbn [rexec] in H. destruct (do_rmove m x) as [z|] eqn:D; [|discriminate H]. apply (IH z); [|exact H]. clear IH H.
  destruct m as [n c|n|n|n].
  - destruct x as [[st ths] tr]. cbn [do_rmove] in D. destruct (rat n ths) as [[[l [|u s]] q]|] eqn:A; try discriminate D. apply rat_spec in A. subst ths.
    destruct (is_ruser u && rcall c) eqn:C; [|discriminate D]. apply andb_true_iff in C. destruct C as [C1 C2]. injection D as <-. apply r_call; assumption.
  - destruct x as [[st ths] tr]. cbn [do_rmove] in D. destruct (rat n ths) as [[[l [|u s]] q]|] eqn:A; try discriminate D. apply rat_spec in A. subst ths.
    destruct s as [|i s]; [discriminate D|]. destruct (is_ruser u) eqn:C; [|discriminate D]. injection D as <-. eapply r_return; [exact R|exact C|discriminate].
  - destruct x as [[st ths] tr]. exact (step_sound n _ z R D).
  - assert (Y := settle_sound rgo_fuel n x R). destruct x as [[st ths] tr]. unfold do_rmove in D. remember (rsettle rgo_fuel n (st, ths, tr)) as w. assert (w = z) by congruence. subst z. exact Y.
Qed.
End Exec.
