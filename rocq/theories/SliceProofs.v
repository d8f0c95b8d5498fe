(** Proofs about slice sources. *)
From Coq Require Import List Arith ZArith Bool Lia.
From Verif Require Import MonoModel MonoProofs FluxModel FluxSpec FluxProofs SliceModel SliceSpec.
Import ListNotations.

Section Proofs.
Context {T E : Type} (g : fcfg) (response nested : bool).
Implicit Types (stack its : list (sitem T E)) (tr evs : list (fevent T E)) (vs : list T) (it : sitem T E).

Lemma handed_app : forall a b : list (fevent T E), handed (a ++ b) = handed a ++ handed b.
Proof. intros. unfold handed. rewrite fcalls_app. apply flat_map_app. Qed.
Lemma signalled_app : forall a b : list (fevent T E), signalled (a ++ b) = signalled a || signalled b.
Proof. intros. unfold signalled. rewrite fcalls_app. apply existsb_app. Qed.
Lemma asked_app : forall a b : list (fevent T E), asked (a ++ b) = asked a || asked b.
Proof. intros. apply existsb_app. Qed.
Lemma sum_app : forall a b, fold_right Z.add 0%Z (a ++ b) = (fold_right Z.add 0 a + fold_right Z.add 0 b)%Z.
Proof. induction a as [|x a IH]; intro b; [reflexivity|]. cbn. rewrite IH. lia. Qed.
Lemma requested_app : forall a b : list (fevent T E), requested (a ++ b) = (requested a + requested b)%Z.
Proof. intros. unfold requested. rewrite flat_map_app. apply sum_app. Qed.

(** ** What an execution does to the accounts *)
Definition srcs stack : list (sitem T E) := filter is_source stack.
Definition hp stack : list T := flat_map (fun it => match it with SI (FDo (FNext v)) => [v] | _ => [] end) stack.
Definition is_comp it : bool := match it with SI (FDo FComplete) => true | _ => false end.
Definition cps stack : nat := length (filter is_comp stack).
Definition tup : Type := list T * list (sitem T E) * list T * nat * (list T * Z * bool * bool).
Definition info vs stack tr : tup := (vs, srcs stack, hp stack, cps stack, (handed tr, requested tr, asked tr, signalled tr)).

Inductive astep : tup -> tup -> Prop :=
| a_next : forall v vs L C h r a s, astep (vs, L, [v], C, (h, r, a, s)) (vs, L, [], C, (h ++ [v], r, a, s))
| a_comp : forall vs L C h r a s, astep (vs, L, [], Datatypes.S C, (h, r, a, s)) (vs, L, [], C, (h, r, a, true))
| a_req : forall n vs L C h r a s, (nested = false -> L = []) ->
    astep (vs, L, [], C, (h, r, a, s)) (vs, SBody n :: L, [], C, (h, (r + Z.max 0 n)%Z, true, s))
| a_body : forall n vs L C x, response = false -> astep (vs, SBody n :: L, [], C, x) (vs, SLoop n :: L, [], C, x)
| a_rbody : forall n vs L C x, response = true ->
    astep (vs, SBody n :: L, [], C, x) (vs, SRespond 0 (if (n <? Z.of_nat (length vs))%Z then n else Z.of_nat (length vs)) :: L, [], C, x)
| a_loop : forall v vs i L C x, (0 < i)%Z -> astep (v :: vs, SLoop i :: L, [], C, x) (vs, SLoop (i - 1) :: L, [v], C, x)
| a_loop_end : forall v vs i L C x, (i <= 0)%Z -> astep (v :: vs, SLoop i :: L, [], C, x) (v :: vs, L, [], C, x)
| a_loop_comp : forall i L C x, astep ([], SLoop i :: L, [], C, x) ([], L, [], Datatypes.S C, x)
| a_resp : forall vs i num v L C x, (i < num)%Z -> nth_error vs (Z.to_nat i) = Some v ->
    astep (vs, SRespond i num :: L, [], C, x) (vs, SRespond (i + 1) num :: L, [v], C, x)
| a_resp_end : forall vs i num L C x, (num <= i)%Z -> (0 <= num)%Z -> (num <= Z.of_nat (length vs))%Z ->
    astep (vs, SRespond i num :: L, [], C, x)
          (skipn (Z.to_nat num) vs, L, [], match skipn (Z.to_nat num) vs with [] => Datatypes.S C | _ => C end, x).

Inductive areach (values : list T) : tup -> Prop :=
| ar_init : areach values (values, [], [], 0, ([], 0%Z, false, false))
| ar_step : forall x y, areach values x -> astep x y -> areach values y.

Lemma srcs_app : forall a b, srcs (a ++ b) = srcs a ++ srcs b.
Proof. intros. apply filter_app. Qed.
Lemma hp_app : forall a b, hp (a ++ b) = hp a ++ hp b.
Proof. intros. apply flat_map_app. Qed.
Lemma cps_app : forall a b, cps (a ++ b) = cps a + cps b.
Proof. intros. unfold cps. rewrite filter_app, app_length. reflexivity. Qed.

Lemma quiet_info : forall (fits : list (fitem T E)), (forall it : fitem T E, In it fits -> match it with FDo _ => False | _ => True end) ->
  srcs (map SI fits) = [] /\ hp (map SI fits) = [] /\ cps (map SI fits) = 0.
Proof.
  induction fits as [|it fits IH]; intro H; [repeat split|]. destruct IH as (A & B & C); [intros; apply H; right; assumption|].
  assert (X := H it (or_introl eq_refl)). cbn. destruct it; try contradiction; unfold srcs, hp, cps in *; auto.
Qed.

(** Steps of the subscriber: no new calls; the events make at most one call, the executed one. *)
Lemma fstep_shape : forall st (it : fitem T E) st' (its : list (fitem T E)) new evs, fstep true g st it = Some (st', its, new, evs) ->
  new = [] /\ (forall x, In x its -> match x with FDo _ => False | _ => True end) /\
  match it with
  | FDo c => evs = [VCall c]
  | FEmit true e => evs = [e]
  | _ => evs = []
  end.
Proof.
  intros st it st' its new evs H.
  destruct it as [|n|c|c|[] e| | |n|n|n|s|s]; cbn [fstep] in H; try discriminate.
  - destruct c as [| |v| |e|r k|n| |]; cbn in H;
      repeat match type of H with context [if ?b then _ else _] => destruct b eqn:?; cbn in H end; try discriminate; injection H as <- <- <- <-;
      (split; [reflexivity|]; split; [|reflexivity]); cbn; intros x Hx; repeat (destruct Hx as [<-|Hx]; [exact I|]); contradiction.
  - destruct c; try discriminate; injection H as <- <- <- <-; (split; [reflexivity|]; split; [|reflexivity]); try (destruct (0 <? f_n st)%Z); cbn; intros x Hx;
      repeat (destruct Hx as [<-|Hx]; [exact I|]); contradiction.
  - destruct e; injection H as <- <- <- <-; (split; [reflexivity|]; split; [|reflexivity]); cbn; intros x Hx; repeat (destruct Hx as [<-|Hx]; [exact I|]); contradiction.
  - injection H as <- <- <- <-; (split; [reflexivity|]; split; [|reflexivity]); cbn; contradiction.
  - injection H as <- <- <- <-; (split; [reflexivity|]; split; [|reflexivity]); destruct (f_n st =? 0)%Z; cbn; intros x Hx; repeat (destruct Hx as [<-|Hx]; [exact I|]); contradiction.
  - injection H as <- <- <- <-; (split; [reflexivity|]; split; [|reflexivity]); destruct (k_norequest g), (k_request g); cbn; intros x Hx; repeat (destruct Hx as [<-|Hx]; [exact I|]); contradiction.
  - injection H as <- <- <- <-; (split; [reflexivity|]; split; [|reflexivity]); destruct (f_req st); cbn; intros x Hx; repeat (destruct Hx as [<-|Hx]; [exact I|]); contradiction.
  - injection H as <- <- <- <-; (split; [reflexivity|]; split; [|reflexivity]); cbn; intros x Hx; repeat (destruct Hx as [<-|Hx]; [exact I|]); contradiction.
  - destruct (f_req st); [|discriminate]. injection H as <- <- <- <-; (split; [reflexivity|]; split; [|reflexivity]); cbn; intros x Hx; repeat (destruct Hx as [<-|Hx]; [exact I|]); contradiction.
  - injection H as <- <- <- <-; (split; [reflexivity|]; split; [|reflexivity]); cbn; intros x Hx; repeat (destruct Hx as [<-|Hx]; [exact I|]); contradiction.
  - injection H as <- <- <- <-; (split; [reflexivity|]; split; [|reflexivity]). intros x Hx. apply in_map_iff in Hx as (k & <- & _). exact I.
Qed.

(** Queued emissions are never calls. *)
Definition noemit it : bool := match it with SI x => emit_ok x | _ => true end.
Definition good stack tr vs values : Prop :=
  hp (tl stack) = [] /\ forallb noemit stack = true /\ areach values (info vs stack tr) /\ exists s, stack = s ++ [SI FUser].

Lemma emits_ok : forall st (it : fitem T E) st' (its : list (fitem T E)) new evs, fstep true g st it = Some (st', its, new, evs) -> forallb emit_ok its = true.
Proof.
  intros st it st' its new evs H.
  destruct it as [|n|c|c|[] e| | |n|n|n|s|s]; cbn [fstep] in H; try discriminate.
  - destruct c as [| |v| |e|r k|n| |]; cbn in H;
      repeat match type of H with context [if ?b then _ else _] => destruct b eqn:?; cbn in H end; try discriminate; injection H as <- <- <- <-; reflexivity.
  - destruct c; try discriminate; injection H as <- <- <- <-; try reflexivity. destruct (0 <? f_n st)%Z; reflexivity.
  - destruct e; injection H as <- <- <- <-; reflexivity.
  - injection H as <- <- <- <-; reflexivity.
  - injection H as <- <- <- <-; destruct (f_n st =? 0)%Z; reflexivity.
  - injection H as <- <- <- <-; destruct (k_norequest g), (k_request g); reflexivity.
  - injection H as <- <- <- <-; destruct (f_req st); reflexivity.
  - injection H as <- <- <- <-; reflexivity.
  - destruct (f_req st); [|discriminate]. injection H as <- <- <- <-; reflexivity.
  - injection H as <- <- <- <-; reflexivity.
  - injection H as <- <- <- <-. apply forallb_forall. intros x Hx. apply in_map_iff in Hx as (k & <- & _). reflexivity.
Qed.
Lemma noemit_map : forall l : list (fitem T E), forallb noemit (map SI l) = forallb emit_ok l.
Proof. induction l as [|x l IH]; [reflexivity|]. cbn. rewrite IH. reflexivity. Qed.

Lemma hp_tl_app : forall its stack, hp (tl its) = [] -> hp stack = [] -> hp (tl (its ++ stack)) = [].
Proof.
  intros [|a b] stack H1 H2; cbn [app tl] in *; [destruct stack as [|x q]; [reflexivity|]; cbn [tl]; change (x :: q) with ([x] ++ q) in H2; rewrite hp_app in H2; apply app_eq_nil in H2; apply H2|].
  rewrite hp_app, H1, H2. reflexivity.
Qed.

Lemma app1 : forall {A} (x : A) l, x :: l = [x] ++ l.
Proof. reflexivity. Qed.

Lemma good_step : forall values st vs it stack tr st' vs' its evs, good (it :: stack) tr vs values ->
  sstep g response st vs it = Some (st', vs', its, evs) ->
  (nested = false -> existsb is_source its = true -> existsb is_source stack = false) ->
  good (its ++ stack) (tr ++ evs) vs' values.
Proof.
  intros values st vs it stack tr st' vs' its evs (Q & M & A & [b B]) H NS. cbn [tl] in Q.
  assert (M' : noemit it = true /\ forallb noemit stack = true) by (cbn [forallb] in M; apply andb_true_iff in M; exact M). destruct M' as [M1 M2].
  assert (Bot : exists s, its ++ stack = s ++ [SI FUser]).
  { destruct b as [|x b]; [injection B as -> ->; discriminate H|]. injection B as -> ->. exists (its ++ b). apply app_assoc. }
  assert (Fin : forall i x, x = info vs' (its ++ stack) (tr ++ evs) -> hp (tl its) = [] -> forallb noemit its = true -> (forall z, z = info vs (it :: stack) tr -> (z = x \/ astep z x)) -> i = it ->
    good (its ++ stack) (tr ++ evs) vs' values).
  { intros i x -> P1 P2 P3 _. split; [apply hp_tl_app; assumption|]. split; [rewrite forallb_app, P2; exact M2|]. split; [|exact Bot].
    destruct (P3 _ eq_refl) as [<-|P4]; [exact A|]. eapply ar_step; [exact A|exact P4]. }
  unfold info in Fin. rewrite srcs_app, hp_app, cps_app, handed_app, requested_app, asked_app, signalled_app in Fin.
  rewrite Q, (app1 it stack), srcs_app, hp_app, cps_app, Q, !app_nil_r in Fin.
  assert (Src0 : nested = false -> existsb is_source its = true -> srcs stack = []).
  { intros Hn Hi. specialize (NS Hn Hi). unfold srcs. clear - NS. induction stack as [|x q IH]; [reflexivity|]. cbn in *. destruct (is_source x); [discriminate|]. apply IH. exact NS. }
  apply (Fin it _ eq_refl); clear Fin; [| | |reflexivity].
  - (* hp (tl its) *)
    destruct it as [fi|n|i|i num|]; cbn [sstep] in H.
    + assert (X : (exists l new, fstep true g st fi = Some (st', l, new, evs) /\ its = map SI l) \/ its = [SI (FDo (FOnSubscribe true false)); SRet; SI FHandle] \/ (exists n, its = [SBody n])).
      { destruct fi as [|n|c|c|[] e| | |n|n|n|s|s]; try (destruct c); try (destruct e); cbv iota beta in H;
          try (injection H as <- <- <- <-; right; right; eexists; reflexivity);
          try match type of H with match ?f with _ => _ end = _ => destruct f as [[[[st1 l1] n1] e1]|] eqn:Ef; [|discriminate H] end;
          injection H as <- <- <- <-; auto; left; exists l1, n1; auto. }
      destruct X as [(l & new & Ef & ->)|[->|[n ->]]]; try reflexivity.
      destruct (fstep_shape _ _ _ _ _ _ Ef) as (_ & Y & _). destruct (quiet_info l Y) as (_ & Z & _).
      destruct l as [|x l]; [reflexivity|]. cbn [map tl]. cbn [map] in Z. rewrite app1, hp_app in Z. apply app_eq_nil in Z. apply Z.
    + destruct response; injection H as <- <- <- <-; reflexivity.
    + destruct vs; [|destruct (0 <? i)%Z]; injection H as <- <- <- <-; reflexivity.
    + destruct (i <? num)%Z; [destruct (nth_error vs (Z.to_nat i)); [|discriminate]; injection H as <- <- <- <-; reflexivity|].
      destruct ((num <? 0) || (Z.of_nat (length vs) <? num))%Z; [discriminate|]. injection H as <- <- <- <-. destruct (skipn (Z.to_nat num) vs); reflexivity.
    + injection H as <- <- <- <-. reflexivity.
  - (* noemit *)
    destruct it as [fi|n|i|i num|]; cbn [sstep] in H.
    + assert (X : (exists l new, fstep true g st fi = Some (st', l, new, evs) /\ its = map SI l) \/ its = [SI (FDo (FOnSubscribe true false)); SRet; SI FHandle] \/ (exists n, its = [SBody n])).
      { destruct fi as [|n|c|c|[] e| | |n|n|n|s|s]; try (destruct c); try (destruct e); cbv iota beta in H;
          try (injection H as <- <- <- <-; right; right; eexists; reflexivity);
          try match type of H with match ?f with _ => _ end = _ => destruct f as [[[[st1 l1] n1] e1]|] eqn:Ef; [|discriminate H] end;
          injection H as <- <- <- <-; auto; left; exists l1, n1; auto. }
      destruct X as [(l & new & Ef & ->)|[->|[n ->]]]; try reflexivity. rewrite noemit_map. apply (emits_ok _ _ _ _ _ _ Ef).
    + destruct response; injection H as <- <- <- <-; reflexivity.
    + destruct vs; [|destruct (0 <? i)%Z]; injection H as <- <- <- <-; reflexivity.
    + destruct (i <? num)%Z; [destruct (nth_error vs (Z.to_nat i)); [|discriminate]; injection H as <- <- <- <-; reflexivity|].
      destruct ((num <? 0) || (Z.of_nat (length vs) <? num))%Z; [discriminate|]. injection H as <- <- <- <-. destruct (skipn (Z.to_nat num) vs); reflexivity.
    + injection H as <- <- <- <-. reflexivity.
  - intros z ->. destruct it as [fi|n|i|i num|]; cbn [sstep] in H.
    + destruct (match fi with FEmit true (VReqSrc n) => Some n | _ => None end) as [n|] eqn:Er.
      { destruct fi as [|x|c|c|[] e| | |x|x|x|s|s]; try discriminate Er. destruct e; try discriminate Er. injection Er as ->. injection H as <- <- <- <-. right.
        cbn [srcs filter is_source hp flat_map app cps is_comp length Nat.add]. rewrite !app_nil_r.
        change (requested [VReqSrc n]) with (Z.max 0 n + 0)%Z. rewrite Z.add_0_r. change (asked [VReqSrc n]) with true. change (signalled [VReqSrc n]) with false.
        rewrite orb_true_r, orb_false_r. apply a_req. intro Hn. apply Src0; [exact Hn|reflexivity]. }
      assert (X : exists l new sti, fstep true g st fi = Some (sti, l, new, evs) /\ vs' = vs /\ srcs its = [] /\ hp its = [] /\ cps its = 0).
      { destruct (match fi with FDo FSubscribe => true | _ => false end) eqn:Es.
        - destruct fi as [| |c| | | | | | | | |]; try discriminate Es. destruct c; try discriminate Es.
          destruct (fstep true g st (FDo FSubscribe)) as [[[[st1 l1] n1] e1]|] eqn:Ef; [|discriminate H]. injection H as <- <- <- <-.
          exists l1, n1, st1. repeat split.
        - assert (Y : exists l new, fstep true g st fi = Some (st', l, new, evs) /\ its = map SI l /\ vs' = vs).
          { destruct fi as [|n|c|c|[] e| | |n|n|n|s|s]; try (destruct c); try (destruct e); try discriminate Es; try discriminate Er; cbv iota beta in H;
            match type of H with match ?f with _ => _ end = _ => destruct f as [[[[st1 l1] n1] e1]|] eqn:Ef; [|discriminate H] end;
            injection H as <- <- <- <-; exists l1, n1; auto. }
          destruct Y as (l & new & Ef & -> & ->). exists l, new, st'. split; [exact Ef|]. split; [reflexivity|]. apply quiet_info. apply (fstep_shape _ _ _ _ _ _ Ef). }
      destruct X as (l & new & sti & Ef & -> & -> & -> & ->). destruct (fstep_shape _ _ _ _ _ _ Ef) as (_ & _ & Ev).
      cbn [app Nat.add].
      assert (Simple : srcs [SI fi] = []) by reflexivity. rewrite Simple. cbn [app].
      destruct (match fi with FDo (FNext v) => Some (inl v) | FDo FComplete => Some (inr tt) | _ => None end) as [[v|]|] eqn:Ec.
      * destruct fi as [| |c| | | | | | | | |]; try discriminate Ec. destruct c; try discriminate Ec. injection Ec as ->. subst evs. right.
        cbn [hp flat_map app cps filter is_comp length Nat.add]. change (handed [VCall (FNext v)]) with [v]. change (requested [@VCall T E (FNext v)]) with 0%Z.
        change (asked [@VCall T E (FNext v)]) with false. change (signalled [@VCall T E (FNext v)]) with false. rewrite Z.add_0_r, !orb_false_r. apply a_next.
      * destruct fi as [| |c| | | | | | | | |]; try discriminate Ec. destruct c; try discriminate Ec. subst evs. right.
        cbn [hp flat_map app cps filter is_comp length Nat.add]. change (handed [@VCall T E FComplete]) with (@nil T). change (requested [@VCall T E FComplete]) with 0%Z.
        change (asked [@VCall T E FComplete]) with false. change (signalled [@VCall T E FComplete]) with true. rewrite Z.add_0_r, orb_false_r, orb_true_r, app_nil_r. apply a_comp.
      * left. assert (Z : hp [SI fi] = [] /\ cps [SI fi] = 0 /\ handed evs = [] /\ requested evs = 0%Z /\ asked evs = false /\ signalled evs = false).
        { cbn [noemit] in M1. destruct fi as [|n|c|c|[] e| | |n|n|n|s|s]; try (destruct c); try (destruct e); try discriminate Ec; try discriminate Er; try discriminate M1; subst evs; repeat split. }
        destruct Z as (-> & -> & -> & -> & -> & ->). rewrite Z.add_0_r, !orb_false_r, app_nil_r. reflexivity.
    + right. assert (Ev : evs = [] /\ vs' = vs) by (destruct response; injection H as <- <- <- <-; auto). destruct Ev as [-> ->]. rewrite app_nil_r, Z.add_0_r, !orb_false_r.
      destruct response eqn:Rr; injection H as <- <-.
      * apply (a_rbody n vs (srcs stack)). exact Rr.
      * apply (a_body n vs (srcs stack)). exact Rr.
    + right. destruct vs as [|v vs].
      * injection H as <- <- <- <-. rewrite app_nil_r, Z.add_0_r, !orb_false_r. apply (a_loop_comp i (srcs stack)).
      * destruct (Z.ltb_spec 0 i); injection H as <- <- <- <-; rewrite app_nil_r, Z.add_0_r, !orb_false_r.
        -- apply (a_loop v vs i (srcs stack)). assumption.
        -- apply (a_loop_end v vs i (srcs stack)). assumption.
    + right. destruct (Z.ltb_spec i num).
      * destruct (nth_error vs (Z.to_nat i)) as [v|] eqn:Ev; [|discriminate]. injection H as <- <- <- <-. rewrite app_nil_r, Z.add_0_r, !orb_false_r.
        apply (a_resp vs i num v (srcs stack)); assumption.
      * destruct ((num <? 0) || (Z.of_nat (length vs) <? num))%Z eqn:Eb; [discriminate|]. apply orb_false_iff in Eb as [E1 E2].
        injection H as <- <- <- <-. rewrite app_nil_r, Z.add_0_r, !orb_false_r.
        assert (X := a_resp_end vs i num (srcs stack) (cps stack) (handed tr, requested tr, asked tr, signalled tr)).
        destruct (skipn (Z.to_nat num) vs); apply X; lia.
    + left. injection H as <- <- <- <-. rewrite app_nil_r, Z.add_0_r, !orb_false_r. reflexivity.
Qed.

Lemma sreach_good : forall values st vs stack tr, sreach g response nested values st vs stack tr -> good stack tr vs values.
Proof.
  intros values st vs stack tr H. induction H as [|st vs stack tr c H IH S|st vs stack tr H IH N|st vs it stack tr st' vs' its evs H IH S NS].
  - split; [reflexivity|]. split; [reflexivity|]. split; [apply ar_init|]. exists []. reflexivity.
  - destruct IH as (Q & M & A & [b B]). split; [exact Q|]. split; [exact M|]. split.
    + replace (info vs (SI (FDo c) :: SI FUser :: stack) tr) with (info vs (SI FUser :: stack) tr); [exact A|].
      destruct c; try discriminate S; reflexivity.
    + exists (SI (FDo c) :: b). rewrite B. reflexivity.
  - destruct IH as (Q & M & A & [b B]). cbn [tl] in Q. split.
    + destruct stack as [|x q]; [reflexivity|]. cbn [tl]. rewrite app1, hp_app in Q. apply app_eq_nil in Q. apply Q.
    + split; [exact M|]. split; [exact A|]. destruct b as [|x b]; [injection B as ->; contradiction|]. injection B as <- ->. exists b. reflexivity.
  - eapply good_step; eassumption.
Qed.

(** ** FromSlice *)
Definition budget (L : list (sitem T E)) : Z := fold_right Z.add 0%Z (map (fun it => match it with SLoop i | SBody i => Z.max 0 i | _ => 0%Z end) L).
Lemma budget_nonneg : forall S, (0 <= budget S)%Z.
Proof. induction S as [|x S IH]; [reflexivity|]. unfold budget in *. cbn. destruct x; lia. Qed.

Definition ainv values (x : tup) : Prop :=
  let '(vs, L, H, C, (h, r, a, s)) := x in
  values = h ++ H ++ vs /\ (Z.of_nat (length (h ++ H)) <= r)%Z /\ (vs <> [] -> (Z.of_nat (length (h ++ H)) + budget L = r)%Z) /\
  (C > 0 \/ s = true -> vs = []) /\ (a = true -> vs = [] -> s = true \/ C > 0 \/ L <> []) /\
  (a = false -> h ++ H = [] /\ s = false /\ C = 0 /\ L = [] /\ r = 0%Z) /\
  forallb (fun it => match it with SRespond _ _ => false | _ => true end) L = true /\ (C > 0 \/ s = true -> H = []).

Ltac fin :=
  repeat match goal with |- _ /\ _ => split end; intros;
  try match goal with Ha : ?a = false, I6 : ?a = false -> _ |- _ => destruct (I6 Ha) as (? & ? & ? & ? & ?) end;
  try discriminate; try lia; auto; try (right; right; discriminate); try tauto;
  try match goal with H : ?h ++ [?v] = [] |- _ => destruct h; discriminate H end;
  try match goal with H : _ \/ _, I4 : _ \/ _ -> ?x = [] |- ?x = [] => apply I4; exact H end;
  try match goal with H : _ \/ _, I4 : _ \/ _ -> ?x :: ?y = [] |- _ => discriminate (I4 H) end;
  try (right; left; lia).

Lemma areach_inv : response = false -> forall values x, areach values x -> ainv values x.
Proof.
  intros Rf values x H. induction H as [|x y H IH S].
  - cbn. repeat split; auto; try lia; try discriminate; intros [?|?]; try lia; try discriminate.
  - clear H. destruct S; cbn [ainv] in *; try (destruct x as [[[h r] a] s]; cbn [ainv] in * ); destruct IH as (I1 & I2 & I3 & I4 & I5 & I6 & I7 & I8);
      cbn [forallb] in I7; try discriminate I7; try congruence.
    + rewrite app_nil_r. rewrite <- app_assoc. cbn [app] in *. fin.
    + fin. apply I4. left. lia.
    + split; [exact I1|]. split; [lia|]. split; [intro Nv; specialize (I3 Nv); unfold budget in *; cbn [map fold_right]; lia|]. fin.
    + fin.
    + rewrite app_nil_r in *. cbn [app] in I1. assert (I3' := I3 ltac:(discriminate)).
      unfold budget in I3'. cbn [map fold_right] in I3'. fold (budget L) in I3'. assert (Bn := budget_nonneg L).
      rewrite app_length. cbn [length]. split; [exact I1|]. split; [lia|].
      split; [intros _; unfold budget; cbn [map fold_right]; fold (budget L); lia|]. fin.
    + split; [exact I1|]. split; [lia|]. split; [intro Nv; specialize (I3 Nv); unfold budget in *; cbn [map fold_right] in I3; lia|]. fin.
    + fin.
Qed.

(** ** SliceResponse, one request at a time *)
Definition rinv values (x : tup) : Prop :=
  let '(vs, L, H, C, (h, r, a, s)) := x in
  match L with
  | [] => values = h ++ H ++ vs /\ (Z.of_nat (length (h ++ H)) <= r)%Z /\ (vs <> [] -> Z.of_nat (length (h ++ H)) = r)
  | [SBody n] => values = h ++ H ++ vs /\ (Z.of_nat (length (h ++ H)) + Z.max 0 n <= r)%Z /\ (vs <> [] -> Z.of_nat (length (h ++ H)) + Z.max 0 n = r)%Z
  | [SRespond i num] => values = h ++ H ++ skipn (Z.to_nat i) vs /\ (0 <= i <= Z.max 0 num)%Z /\ (num <= Z.of_nat (length vs))%Z /\
       (Z.of_nat (length (h ++ H)) + (Z.max 0 num - i) <= r)%Z /\ (0 <= num < Z.of_nat (length vs) -> Z.of_nat (length (h ++ H)) + (Z.max 0 num - i) = r)%Z
  | _ => False
  end /\
  (C > 0 \/ s = true -> vs = []) /\ (a = true -> vs = [] -> s = true \/ C > 0 \/ L <> []) /\
  (a = false -> h ++ H = [] /\ s = false /\ C = 0 /\ L = [] /\ r = 0%Z) /\ (C > 0 \/ s = true -> H = []).

Lemma skipn_nth : forall {A} (l : list A) i v, nth_error l i = Some v -> skipn i l = v :: skipn (S i) l.
Proof. induction l as [|x l IH]; intros [|i] v H; try discriminate; cbn in *; [congruence|]. apply IH. exact H. Qed.

Lemma areach_rinv : response = true -> nested = false -> forall values x, areach values x -> rinv values x.
Proof.
  intros Rf Nf values x H. induction H as [|x y H IH S].
  - cbn. repeat split; auto; try lia; try discriminate; intros [?|?]; try lia; try discriminate.
  - clear H. destruct S; cbn [rinv] in *; try (destruct x as [[[h r] a] s]; cbn [rinv] in * ); destruct IH as (I1 & I4 & I5 & I6 & I0); try congruence.
    + rewrite app_nil_r, <- !app_assoc. cbn [app] in *. split; [|fin].
      destruct L as [|[| | | |] [|]]; try contradiction; rewrite <- ?app_assoc; exact I1.
    + split; [exact I1|fin]. apply I4. left. lia.
    + rewrite (H Nf) in *. destruct I1 as (I1 & I2 & I3). split; [|fin]. split; [exact I1|]. split; [lia|]. intro Nv. specialize (I3 Nv). lia.
    + destruct L as [|l L]; [|contradiction]. split; [|fin]. destruct I1 as (I1 & I2 & I3). split; [exact I1|]. split; [lia|].
      destruct (Z.ltb_spec n (Z.of_nat (length vs))); (split; [lia|]); rewrite ?Z.sub_0_r; (split; [lia|]); [|lia].
      intro Hn. assert (Nv : vs <> []) by (intros ->; cbn [length] in *; lia). specialize (I3 Nv). lia.
    + contradiction.
    + contradiction.
    + contradiction.
    + destruct L as [|l L]; [|contradiction]. destruct I1 as (I1 & I2 & I3 & I7 & I8). split; [|fin]. rewrite app_nil_r in *. rewrite app_length. cbn [length].
      rewrite (skipn_nth _ _ _ H0) in I1. replace (Z.to_nat (i + 1)) with (Datatypes.S (Z.to_nat i)) by lia. split; [exact I1|].
      split; [lia|]. split; [lia|]. split; [lia|]. intro X. assert (I8' := I8 X). lia. rewrite (I4 H1) in H0. destruct (Z.to_nat i); discriminate H0.
    + destruct L as [|l L]; [|contradiction]. destruct I1 as (I1 & I2 & I3 & I7 & I8). assert (i = num) by lia. subst i. split; [|split; [|split; [|split]]].
      * split; [exact I1|]. split; [lia|]. intro Nv. assert (num < Z.of_nat (length vs))%Z.
        { destruct (Z.lt_ge_cases num (Z.of_nat (length vs))); [assumption|]. exfalso. apply Nv. apply skipn_all2. lia. }
        assert (I8' := I8 ltac:(lia)). lia.
      * intros Hc. destruct (skipn (Z.to_nat num) vs) eqn:Es; [reflexivity|]. rewrite (I4 Hc) in Es. destruct (Z.to_nat num); discriminate Es.
      * intros Ha Hv. rewrite Hv. right. left. lia.
      * intro Ha. destruct (I6 Ha) as (_ & _ & _ & X & _). discriminate.
      * reflexivity.
Qed.

(** ** Both *)
Lemma settled : response = false \/ nested = false -> forall values vs h r a s, areach values (vs, [], [], 0, (h, r, a, s)) ->
  h = firstn (Z.to_nat r) values /\ s = (a && (Z.of_nat (length values) <=? r)%Z).
Proof.
  intros Hr values vs h r a s H.
  assert (X : values = h ++ vs /\ (Z.of_nat (length h) <= r)%Z /\ (vs <> [] -> Z.of_nat (length h) = r) /\ (s = true -> vs = []) /\ (a = true -> vs = [] -> s = true) /\ (a = false -> s = false)).
  { destruct response eqn:Rr.
    - assert (Nf : nested = false) by (destruct Hr; [discriminate|assumption]).
      destruct (areach_rinv Rr Nf values _ H) as ((I1 & I2 & I3) & I4 & I5 & I6 & _). cbn [app] in *. rewrite app_nil_r in *. repeat split; auto.
      + intros Ha Hv. destruct (I5 Ha Hv) as [?|[?|?]]; [assumption|lia|congruence].
      + intro Ha. apply I6, Ha.
    - destruct (areach_inv Rr values _ H) as (I1 & I2 & I3 & I4 & I5 & I6 & _). cbn [app] in *. rewrite app_nil_r in *. repeat split; auto.
      + intro Nv. specialize (I3 Nv). cbn in I3. lia.
      + intros Ha Hv. destruct (I5 Ha Hv) as [?|[?|?]]; [assumption|lia|congruence].
      + intro Ha. apply I6, Ha. }
  destruct X as (I1 & I2 & I3 & I4 & I5 & I6). subst values. destruct vs as [|v vs].
  - rewrite app_nil_r. split; [symmetry; apply firstn_all2; lia|]. destruct a; [rewrite (I5 eq_refl eq_refl)|rewrite (I6 eq_refl); reflexivity].
    symmetry. cbn. lia.
  - specialize (I3 ltac:(discriminate)). split.
    + subst r. rewrite Nat2Z.id, firstn_app, Nat.sub_diag, firstn_all. cbn. rewrite app_nil_r. reflexivity.
    + assert (s = false) by (destruct s; [specialize (I4 eq_refl); discriminate|reflexivity]). subst s. rewrite app_length. cbn [length].
      destruct a; [|reflexivity]. cbn [andb]. symmetry. apply Z.leb_gt. lia.
Qed.

Lemma always : response = false \/ nested = false -> forall values vs L H C h r a s, areach values (vs, L, H, C, (h, r, a, s)) ->
  (exists q, values = h ++ q) /\ (Z.of_nat (length h) <= r)%Z /\ (s = true -> H = [] /\ h = values).
Proof.
  intros Hr values vs L H C h r a s X. destruct response eqn:Rr.
  - assert (Nf : nested = false) by (destruct Hr; [discriminate|assumption]).
    destruct (areach_rinv Rr Nf values _ X) as (I1 & I4 & I5 & I6 & I0).
    destruct L as [|[| | | |] [|]]; try contradiction; destruct I1 as (I1 & I2 & I3); rewrite app_length in *; (split; [eexists; exact I1|]).
    + split; [lia|]. intro Hs. assert (Hn := I0 (or_intror Hs)). split; [exact Hn|]. rewrite (I4 (or_intror Hs)), Hn, !app_nil_r in I1. symmetry. exact I1.
    + split; [lia|]. intro Hs. assert (Hn := I0 (or_intror Hs)). split; [exact Hn|]. rewrite (I4 (or_intror Hs)), Hn, !app_nil_r in I1. symmetry. exact I1.
    + split; [lia|]. intro Hs. assert (Hn := I0 (or_intror Hs)). split; [exact Hn|]. rewrite (I4 (or_intror Hs)), Hn, skipn_nil, !app_nil_r in I1. symmetry. exact I1.
  - destruct (areach_inv Rr values _ X) as (I1 & I2 & I3 & I4 & I5 & I6 & I7 & I0). rewrite app_length in *. split; [eexists; exact I1|].
    split; [lia|]. intro Hs. assert (Hn := I0 (or_intror Hs)). split; [exact Hn|]. rewrite (I4 (or_intror Hs)), Hn, !app_nil_r in I1. symmetry. exact I1.
Qed.

(** ** An execution with a slice source is an execution of the subscriber with an arbitrary source *)
Definition rel (a : sitem T E) (b : fitem T E) : Prop :=
  match a with SI it => b = it | _ => is_user b = true end.

Lemma rel_map : forall l : list (fitem T E), Forall2 rel (map SI l) l.
Proof. induction l; constructor; [reflexivity|assumption]. Qed.

Lemma simulate : forall values st vs stack tr, sreach g response nested values st vs stack tr ->
  exists fstack, Forall2 rel stack fstack /\ freach true g st [fstack] tr.
Proof.
  intros values st vs stack tr H. induction H as [|st vs stack tr c H IH S|st vs stack tr H IH N|st vs it stack tr st' vs' its evs H IH S NS].
  - exists [FUser]. split; [repeat constructor|]. apply (f_init true g 1).
  - destruct IH as (f & F & R). inversion F as [|a b x y Fa Fb]; subst. cbn in Fa. subst b. exists (FDo c :: FUser :: y). split; [repeat constructor; assumption|].
    apply (f_call true g st [] FUser y [] tr c R eq_refl).
  - destruct IH as (f & F & R). inversion F as [|a b x y Fa Fb]; subst. cbn in Fa. subst b. exists y. split; [assumption|].
    apply (f_return true g st [] FUser y [] tr R eq_refl). intros ->. inversion Fb; subst; contradiction.
  - assert (Bot : stack <> [] \/ it = SI FUser).
    { destruct (sreach_good _ _ _ _ _ H) as (_ & _ & _ & [b B]). destruct b as [|x b]; injection B as -> ->; [auto|]. left. destruct b; discriminate. }
    destruct IH as (f & F & R). inversion F as [|a b x y Fa Fb]; subst.
    assert (Ne : it <> SI FUser -> y <> []). { intros Ni ->. destruct Bot as [Bot|Bot]; [|contradiction]. inversion Fb; subst; contradiction. }
    destruct it as [fi|n|i|i num|]; cbn [sstep] in S.
    + cbn in Fa. subst b.
      destruct (match fi with FEmit true (VReqSrc _) => true | FDo FSubscribe => true | _ => false end) eqn:Sp.
      * destruct fi as [|n|c|c|[] e| | |n|n|n|s|s]; try discriminate Sp.
        -- destruct c; try discriminate Sp. destruct (fstep true g st (FDo FSubscribe)) as [[[[st1 l1] n1] e1]|] eqn:Ef; [|discriminate S].
           injection S as <- <- <- <-. cbn [fstep] in Ef. destruct (f_sub st) eqn:Su; [discriminate Ef|]. injection Ef as <- <- <- <-.
           exists ([FDo (FOnSubscribe true false); FUser; FHandle] ++ y). split; [apply Forall2_app; [repeat constructor|exact Fb]|].
           apply (f_call true g _ [] FUser (FHandle :: y) [] _ (FOnSubscribe true false)); [|reflexivity].
           apply (f_step true g st [] (FDo FSubscribe) y [] tr _ [FUser; FHandle] [] [VCall FSubscribe] R). cbn [fstep]. rewrite Su. reflexivity.
        -- destruct e; try discriminate Sp. injection S as <- <- <- <-. exists ([FSrc n] ++ y). split; [apply Forall2_app; [repeat constructor|exact Fb]|].
           apply (f_step true g st [] (FEmit true (VReqSrc n)) y [] tr st [FSrc n] [] [VReqSrc n] R eq_refl).
      * assert (Y : exists l new, fstep true g st fi = Some (st', l, new, evs) /\ its = map SI l).
        { destruct fi as [|n|c|c|[] e| | |n|n|n|s|s]; try (destruct c); try (destruct e); try discriminate Sp; cbv iota beta in S;
            match type of S with match ?f with _ => _ end = _ => destruct f as [[[[st1 l1] n1] e1]|] eqn:Ef; [|discriminate S] end;
            injection S as <- <- <- <-; exists l1, n1; auto. }
        destruct Y as (l & new & Ef & ->). destruct (fstep_shape _ _ _ _ _ _ Ef) as (-> & _). exists (l ++ y). split; [apply Forall2_app; [apply rel_map|exact Fb]|].
        apply (f_step true g st [] fi y [] tr st' l [] evs R Ef).
    + assert (Z : st' = st /\ evs = [] /\ exists z, its = [z] /\ rel z b) by (destruct response; injection S as <- <- <- <-; repeat split; eexists; split; [reflexivity|exact Fa|reflexivity|exact Fa]).
      destruct Z as (-> & -> & z & -> & Rz). rewrite app_nil_r. exists (b :: y). split; [|exact R]. apply (Forall2_app (l1:=[z]) (l1':=[b])); [repeat constructor; assumption|exact Fb].
    + destruct vs as [|v vs]; [|destruct (0 <? i)%Z]; injection S as <- <- <- <-; rewrite app_nil_r.
      * exists ([FDo FComplete; b] ++ y). split; [apply Forall2_app; [repeat constructor; exact Fa|exact Fb]|]. apply (f_call true g st [] b y [] tr FComplete R Fa).
      * exists ([FDo (FNext v); b] ++ y). split; [apply Forall2_app; [repeat constructor; exact Fa|exact Fb]|]. apply (f_call true g st [] b y [] tr (FNext v) R Fa).
      * exists ([b] ++ y). split; [apply Forall2_app; [repeat constructor; exact Fa|exact Fb]|]. exact R.
    + destruct (i <? num)%Z.
      * destruct (nth_error vs (Z.to_nat i)) as [v|]; [|discriminate]. injection S as <- <- <- <-; rewrite app_nil_r.
        exists ([FDo (FNext v); b] ++ y). split; [apply Forall2_app; [repeat constructor; exact Fa|exact Fb]|]. apply (f_call true g st [] b y [] tr (FNext v) R Fa).
      * destruct ((num <? 0) || (Z.of_nat (length vs) <? num))%Z; [discriminate|]. injection S as <- <- <- <-; rewrite app_nil_r.
        destruct (skipn (Z.to_nat num) vs).
        -- exists ([FDo FComplete; b] ++ y). split; [apply Forall2_app; [repeat constructor; exact Fa|exact Fb]|]. apply (f_call true g st [] b y [] tr FComplete R Fa).
        -- exists ([b] ++ y). split; [apply Forall2_app; [repeat constructor; exact Fa|exact Fb]|]. exact R.
    + injection S as <- <- <- <-; rewrite app_nil_r. exists y. split; [exact Fb|]. apply (f_return true g st [] b y [] tr R Fa). apply Ne. discriminate.
Qed.

(** ** What the subscriber sees *)
Definition seq_ok tr : Prop := uncancelled tr = true ->
  flat_map (fun c => match c with FNext v => [v] | _ => [] end) (upto (fcalls tr)) = handed tr /\
  closer (fcalls tr) = (if signalled tr then Some FComplete else None).

Lemma seq_call : forall tr c, seq_ok tr -> (match c with FNext _ => signalled tr = false | FError _ => False | _ => True end) -> seq_ok (tr ++ [VCall c]).
Proof.
  intros tr c H Hc U. unfold uncancelled in U. rewrite fcalls_app in U. change (fcalls [VCall c]) with [c] in U. rewrite forallb_app in U. apply andb_true_iff in U as [U1 U2].
  destruct (H U1) as [A B]. rewrite handed_app, signalled_app, fcalls_app. change (fcalls [VCall c]) with [c]. rewrite upto_app, closer_app, B.
  destruct (signalled tr).
  - cbn [orb]. split; [|reflexivity]. rewrite A. destruct c; cbn; rewrite ?app_nil_r; try reflexivity. discriminate.
  - cbn [orb]. rewrite flat_map_app. rewrite (upto_none _ B) in A. unfold handed at 1. split.
    + f_equal. cbn [upto]. destruct (closes c); destruct c; reflexivity.
    + destruct c; try reflexivity; try discriminate U2. contradiction.
Qed.

Lemma sreach_seq : response = false \/ nested = false -> forall values st vs stack tr, sreach g response nested values st vs stack tr ->
  seq_ok tr /\ forallb (fun it => match it with SI (FDo (FError _)) => false | _ => true end) stack = true.
Proof.
  intros Hr values st vs stack tr H. induction H as [|st vs stack tr c H IH S|st vs stack tr H IH N|st vs it stack tr st' vs' its evs H IH S NS].
  - split; [intros _; split; reflexivity|reflexivity].
  - destruct IH as [IH1 IH2]. split; [assumption|]. cbn [forallb]. cbn [forallb] in IH2. destruct c; try discriminate S; exact IH2.
  - destruct IH as [IH1 IH2]. split; assumption.
  - destruct IH as [IH1 IH2]. cbn [forallb] in IH2. apply andb_true_iff in IH2 as [I2 I3].
    destruct (sreach_good _ _ _ _ _ H) as (Q & M & A & _). cbn [tl] in Q. cbn [forallb] in M. apply andb_true_iff in M as [M1 _].
    assert (Quiet : forall l : list (fitem T E), (forall x, In x l -> match x with FDo _ => False | _ => True end) ->
        forallb (fun it => match it with SI (FDo (FError _)) => false | _ => true end) (map SI l : list (sitem T E)) = true).
    { intros l Hl. apply forallb_forall. intros x Hx. apply in_map_iff in Hx as (y & <- & Hy). specialize (Hl y Hy). destruct y; try reflexivity. contradiction. }
    destruct it as [fi|n|i|i num|]; cbn [sstep] in S.
    + destruct (match fi with FEmit true (VReqSrc _) => true | _ => false end) eqn:Sp.
      { destruct fi as [|n|c|c|[] e| | |n|n|n|s|s]; try discriminate Sp. destruct e; try discriminate Sp. injection S as <- <- <- <-.
        split; [|exact I3]. unfold seq_ok, uncancelled, handed, signalled in *. rewrite fcalls_app, app_nil_r. exact IH1. }
      assert (Y : exists l new sti, fstep true g st fi = Some (sti, l, new, evs) /\ forallb (fun it => match it with SI (FDo (FError _)) => false | _ => true end) its = true).
      { destruct (match fi with FDo FSubscribe => true | _ => false end) eqn:Es.
        - destruct fi as [| |c| | | | | | | | |]; try discriminate Es. destruct c; try discriminate Es.
          destruct (fstep true g st (FDo FSubscribe)) as [[[[st1 l1] n1] e1]|] eqn:Ef; [|discriminate S]. injection S as <- <- <- <-. exists l1, n1, st1. split; reflexivity.
        - assert (Z : exists l new, fstep true g st fi = Some (st', l, new, evs) /\ its = map SI l).
          { destruct fi as [|n|c|c|[] e| | |n|n|n|s|s]; try (destruct c); try (destruct e); try discriminate Es; try discriminate Sp; cbv iota beta in S;
            match type of S with match ?f with _ => _ end = _ => destruct f as [[[[st1 l1] n1] e1]|] eqn:Ef; [|discriminate S] end;
            injection S as <- <- <- <-; exists l1, n1; auto. }
          destruct Z as (l & new & Ef & ->). exists l, new, st'. split; [exact Ef|]. apply Quiet. apply (fstep_shape _ _ _ _ _ _ Ef). }
      destruct Y as (l & new & sti & Ef & Fi). split; [|rewrite forallb_app, Fi; exact I3].
      destruct (fstep_shape _ _ _ _ _ _ Ef) as (_ & _ & Ev).
      assert (Nocall : fcalls evs = [] -> seq_ok (tr ++ evs)).
      { intro Hn. unfold seq_ok, uncancelled, handed, signalled in *. rewrite fcalls_app, Hn, app_nil_r. exact IH1. }
      destruct fi as [|n|c|c|[] e| | |n|n|n|s|s]; try (apply Nocall; rewrite Ev; reflexivity).
      * rewrite Ev. apply seq_call; [exact IH1|]. destruct c; try exact I; [|discriminate I2].
        destruct (always Hr _ _ _ _ _ _ _ _ _ A) as (_ & _ & Al). destruct (signalled tr); [|reflexivity]. destruct (Al eq_refl) as [Al' _]. discriminate Al'.
      * apply Nocall. rewrite Ev. cbn [noemit] in M1. destruct e; try reflexivity. discriminate M1.
    + assert (Z : evs = [] /\ forallb (fun it => match it with SI (FDo (FError _)) => false | _ => true end) its = true) by (destruct response; injection S as <- <- <- <-; split; reflexivity).
      destruct Z as (-> & Z). rewrite app_nil_r, forallb_app, Z. split; assumption.
    + assert (Z : evs = [] /\ forallb (fun it => match it with SI (FDo (FError _)) => false | _ => true end) its = true).
      { destruct vs as [|v vs]; [|destruct (0 <? i)%Z]; injection S as <- <- <- <-; split; reflexivity. }
      destruct Z as (-> & Z). rewrite app_nil_r, forallb_app, Z. split; assumption.
    + assert (Z : evs = [] /\ forallb (fun it => match it with SI (FDo (FError _)) => false | _ => true end) its = true).
      { destruct (i <? num)%Z.
        - destruct (nth_error vs (Z.to_nat i)) as [v|]; [|discriminate]. injection S as <- <- <- <-; split; reflexivity.
        - destruct ((num <? 0) || (Z.of_nat (length vs) <? num))%Z; [discriminate|]. injection S as <- <- <- <-. destruct (skipn (Z.to_nat num) vs); split; reflexivity. }
      destruct Z as (-> & Z). rewrite app_nil_r, forallb_app, Z. split; assumption.
    + injection S as <- <- <- <-. rewrite app_nil_r. split; assumption.
Qed.

Lemma expected_shape : k_next g = true -> k_complete g = true -> forall l : list (fcall T E),
  closer l = None \/ closer l = Some FComplete ->
  expected g l = map VNext (flat_map (fun c => match c with FNext v => [v] | _ => [] end) (upto l)) ++ (match closer l with Some _ => [VComplete] | None => [] end).
Proof.
  intros Kn Kc l. unfold expected. induction l as [|c l IH]; intro Hc; [reflexivity|]. cbn [upto]. unfold closer in *. cbn [find] in *. destruct (closes c) eqn:Cc.
  - destruct Hc as [Hc|Hc]; [discriminate|]. injection Hc as ->. cbn. rewrite Kc. reflexivity.
  - cbn [flat_map]. rewrite (IH Hc). destruct c; try discriminate Cc; cbn; rewrite ?Kn; reflexivity.
Qed.

Theorem slice_bounds_proof : response = false \/ nested = false -> forall values st vs stack tr, sreach g response nested values st vs stack tr ->
  (exists q, values = handed tr ++ q) /\ (Z.of_nat (length (handed tr)) <= requested tr)%Z /\ (signalled tr = true -> handed tr = values).
Proof.
  intros Hr values st vs stack tr R. destruct (sreach_good _ _ _ _ _ R) as (_ & _ & A & _). destruct (always Hr _ _ _ _ _ _ _ _ _ A) as (X & Y & Z).
  split; [exact X|]. split; [exact Y|]. intro Hs. apply Z, Hs.
Qed.

Theorem slice_settled_proof : response = false \/ nested = false -> forall values st vs tr, sreach g response nested values st vs [SI FUser] tr ->
  handed tr = firstn (Z.to_nat (requested tr)) values /\ signalled tr = (asked tr && (Z.of_nat (length values) <=? requested tr)%Z).
Proof.
  intros Hr values st vs tr R. destruct (sreach_good _ _ _ _ _ R) as (_ & _ & A & _). apply (settled Hr _ _ _ _ _ _ A).
Qed.

Theorem slice_delivered_proof : response = false \/ nested = false -> k_next g = true -> k_complete g = true ->
  forall values st vs tr, sreach g response nested values st vs [SI FUser] tr -> uncancelled tr = true ->
  delivered tr = map VNext (firstn (Z.to_nat (requested tr)) values) ++
                 (if asked tr && (Z.of_nat (length values) <=? requested tr)%Z then [VComplete] else []).
Proof.
  intros Hr Kn Kc values st vs tr R U. destruct (simulate _ _ _ _ _ R) as (f & F & Rf). inversion F as [|a b x y Fa Fb]; subst. inversion Fb; subst. cbn in Fa. subst b.
  destruct (deliveries_proof g _ _ _ Rf) as [_ D]. rewrite (D eq_refl). destruct (sreach_seq Hr _ _ _ _ _ R) as [Sq _]. destruct (Sq U) as [S1 S2].
  destruct (slice_settled_proof Hr _ _ _ _ R) as [P1 P2]. rewrite expected_shape; auto.
  - rewrite S1, P1, S2, P2. f_equal. destruct (asked tr && (Z.of_nat (length values) <=? requested tr)%Z); reflexivity.
  - rewrite S2. destruct (signalled tr); auto.
Qed.
End Proofs.

(** * Examples: a subscriber that makes a list of calls, each as soon as it has seen so many items or nothing is running *)
Section Drive.
Context {T E : Type} (g : fcfg) (response nested : bool).
Definition sconf : Type := flst * list T * list (sitem T E) * list (fevent T E).
Definition s_ok values (x : sconf) : Prop := let '(st, vs, stack, tr) := x in sreach g response nested values st vs stack tr.
Fixpoint drive (fuel : nat) (calls : list (nat * fcall T E)) (x : sconf) : sconf :=
  let '(st, vs, stack, tr) := x in
  let back rest := match rest with [] => x | _ => match fuel with 0 => x | S fuel' => drive fuel' calls (st, vs, rest, tr) end end in
  match fuel with
  | 0 => x
  | S fuel' =>
    match stack with
    | SI FUser :: rest =>
      match calls with
      | (n, c) :: calls' =>
        if (match rest with [] => true | _ => length (delivered tr) =? n end) && subscriber_call c
        then drive fuel' calls' (st, vs, SI (FDo c) :: stack, tr) else back rest
      | [] => back rest
      end
    | it :: rest =>
      match sstep g response st vs it with
      | Some (st', vs', its, evs) =>
        if nested || negb (existsb is_source its) || negb (existsb is_source rest) then drive fuel' calls (st', vs', its ++ rest, tr ++ evs) else x
      | None => x
      end
    | [] => x
    end
  end.
Lemma drive_sound : forall values fuel calls x, s_ok values x -> s_ok values (drive fuel calls x).
Proof.
  intros values. induction fuel as [|fuel IH]; intros calls [[[st vs] stack] tr] R; [exact R|]. cbn [drive].
  destruct stack as [|it rest]; [exact R|].
  destruct (match it with SI FUser => true | _ => false end) eqn:U.
  - destruct it as [[]| | | |]; try discriminate U.
    assert (B : s_ok values (match rest with [] => (st, vs, SI FUser :: rest, tr) | _ => drive fuel calls (st, vs, rest, tr) end)).
    { destruct rest as [|i rest]; [exact R|]. apply IH. apply s_return; [exact R|discriminate]. }
    destruct calls as [|[n c] calls]; [exact B|].
    destruct ((match rest with [] => true | _ => length (delivered tr) =? n end) && subscriber_call c) eqn:Sc; [|exact B].
    apply andb_true_iff in Sc as [_ Sc]. apply IH. apply s_call; assumption.
  - assert (B : s_ok values (match sstep g response st vs it with
      | Some (st', vs', its, evs) =>
        if nested || negb (existsb is_source its) || negb (existsb is_source rest) then drive fuel calls (st', vs', its ++ rest, tr ++ evs) else (st, vs, it :: rest, tr)
      | None => (st, vs, it :: rest, tr) end)).
    { destruct (sstep g response st vs it) as [[[[st2 vs2] its] evs]|] eqn:Ss; [|exact R].
      destruct (nested || negb (existsb is_source its) || negb (existsb is_source rest)) eqn:G; [|exact R].
      apply IH. eapply s_step; [exact R|exact Ss|]. intros -> Hs. rewrite Hs in G. cbn in G. destruct (existsb is_source rest); [discriminate G|reflexivity]. }
    destruct it as [[]| | | |]; try discriminate U; exact B.
Qed.
End Drive.
