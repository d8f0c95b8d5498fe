(** The invariant of a streaming call and the requester's moves. *)
From Coq Require Import List NArith ZArith Lia Bool ZifyBool ZifyNat ZifyN.
From Verif Require Import Base BaseLemmas FramesModel FramesSpec FramesProofs InvokeModel MonoModel FluxModel FluxSpec ProxyModel ProxySpec DispatchModel DispatchSpec ResponderModel ResponderSpec ResponderProofs ResponderSerial.
From Verif Require Import StreamModel StreamSpec StreamSides StreamWire.
From Verif Require CallModel CallSpec.
Import ListNotations.
Open Scope N_scope.

(** ** Sums *)
Definition nsum {A} (f : A -> N) (l : list A) : N := fold_right (fun x a => f x + a) 0 l.
Lemma nsum_app : forall {A} (f : A -> N) a b, nsum f (a ++ b) = nsum f a + nsum f b.
Proof. intros A f. induction a as [|x a IH]; intro b; [reflexivity|]. cbn [app nsum fold_right]. fold (nsum f a) (nsum f (a ++ b)). rewrite IH. lia. Qed.
Lemma nsum_cons : forall {A} (f : A -> N) x b, nsum f (x :: b) = f x + nsum f b.
Proof. reflexivity. Qed.
Lemma nsum_nil : forall {A} (f : A -> N), nsum f [] = 0.
Proof. reflexivity. Qed.

Lemma cut_inv : forall {A} i (l : list A) a x b, CallModel.cut i l = Some (a, x, b) -> l = a ++ x :: b /\ nth_error l i = Some x.
Proof.
  intros A i l a x b. unfold CallModel.cut. destruct (nth_error l i) as [y|] eqn:E; [|discriminate]. intro X. injection X as <- -> <-. split; [|reflexivity].
  revert l E. induction i as [|i IH]; intros [|z l] E; try discriminate E; cbn in E |- *; [congruence|]. rewrite <- IH by exact E. reflexivity.
Qed.

(** ** Lines *)
Section Line.
Context (sid : N).
Definition line := list (frame + bytes).
Definition encode (l : line) : list bytes := map (fun x => match x with inl f => wire f | inr b => b end) l.
Definition ours (l : line) : list frame := flat_map (fun x => match x with inl f => [f] | inr _ => [] end) l.
Definition strangers (l : line) : Prop := Forall (fun x => match x with inl _ => True | inr b => foreign sid b end) l.
Lemma ours_app : forall a b, ours (a ++ b) = ours a ++ ours b.
Proof. intros. apply flat_map_app. Qed.
Lemma ours_inl : forall fs, ours (map inl fs) = fs.
Proof. induction fs as [|f fs IH]; [reflexivity|]. cbn. f_equal. exact IH. Qed.
Lemma encode_app : forall a b, encode (a ++ b) = encode a ++ encode b.
Proof. intros. apply map_app. Qed.
Lemma encode_inl : forall fs, encode (map inl fs) = map wire fs.
Proof. intro fs. unfold encode. rewrite map_map. reflexivity. Qed.
Lemma strangers_inl : forall l fs, strangers l -> strangers (l ++ map inl fs).
Proof. intros l fs S. apply Forall_app. split; [exact S|]. apply Forall_forall. intros x X. apply in_map_iff in X. destruct X as (f & <- & _). exact Logic.I. Qed.
Lemma strangers_inr : forall l b, strangers l -> foreign sid b -> strangers (l ++ [inr b]).
Proof. intros l b S F. apply Forall_app. split; [exact S|]. constructor; [exact F|constructor]. Qed.
End Line.

(** ** What received frames do *)
Definition netc (c : scall) : list net := match net_call c with Some n => [n] | None => [] end.
Definition fx (f : frame) : list net := flat_map netc (asks f).
Fixpoint effects (fs : list frame) : list net := match fs with [] => [] | f :: fs' => fx f ++ (if ends_stream f then [] else effects fs') end.
Definition ended (fs : list frame) : bool := existsb ends_stream fs.
Lemma effects_app : forall a b, effects (a ++ b) = effects a ++ (if ended a then [] else effects b).
Proof.
  induction a as [|f a IH]; intro b; [reflexivity|]. cbn [app effects ended existsb]. destruct (ends_stream f); cbn [orb]; [rewrite !app_nil_r; reflexivity|]. fold (ended a). rewrite IH, <- app_assoc. reflexivity.
Qed.
Lemma ended_app : forall a b, ended (a ++ b) = ended a || ended b.
Proof. intros. apply existsb_app. Qed.
Lemma effects_owed : forall g sid calls, expected g (map fc (effects (flat_map (owed sid) (upto calls)))) = expected g calls.
Proof.
  intros g sid. induction calls as [|c l IH]; [reflexivity|]. unfold expected at 2. cbn [upto]. destruct c; try match goal with v : pay |- _ => destruct v as [d m] end; cbn [closes flat_map owed app]; try exact IH; try reflexivity.
  cbn [effects ends_stream pf_complete fx asks pf_next flat_map netc net_call pf_data pf_metadata app map fc]. unfold expected at 1. cbn [upto closes flat_map]. f_equal. exact IH.
Qed.

Definition head_nets (ths : list (list pitem)) : list net := match ths with (PNetDo n :: _) :: _ => [n] | _ => [] end.
Definition not_net (it : pitem) : bool := match it with PNetDo _ => false | _ => true end.

Section Sys.
Context {H : Type}.
Context (wp wr : site) (tp tr : ikind -> list (option H)) (sp sr : bool) (g : fcfg) (sid : N) (data md : bytes).
Context (Sid : sid < 2^31) (Snd : CallSpec.sendable data md) (Few : few tr) (K : option H) (V : verdict md tr K).
Notation req := (stream_request sid data md).
Notation pstep := (pstep sp g req false).
Notation gin := (mkF false false false false false false).
Notation kinv := (kinv g).
Notation up_frame := (up_frame sid data md).
Notation good := (good sid).
Notation refusal := (refusal sid md).
Notation act := (act H unit).

Definition opened_with (ptr : list pevent) (n : N) : Prop := exists r, In (FramesModel.FRequest r) (psent ptr) /\ rf_initial_n r = n.
Definition run_ok (ptr : list pevent) (h : H) (d m : bytes) (n : N) : Prop := K = Some h /\ d = data /\ m = handler_metadata wr RS md /\ opened_with ptr n.
Definition act_ok (ptr : list pevent) (a : act) : Prop :=
  match a with
  | ASend f => K = None /\ f = refusal
  | ARun k h _ d m _ n => k = RS /\ run_ok ptr h d m n
  | ACall _ (DoRequest _) | ACall _ OnComplete => True
  | ARemove _ | ARegister _ => True
  | _ => False
  end.
Definition task_ok (ptr : list pevent) (t : task H) : Prop :=
  match t with
  | TSend f => K = None /\ f = refusal
  | TRegister h d m n | TStart h d m n => run_ok ptr h d m n
  | TRequest _ => True
  end.

Definition tok (f : frame) : N := match f with FramesModel.FRequest _ => 1 | _ => 0 end.
Definition toka (a : act) : N := match a with ASend _ | ARun _ _ _ _ _ _ _ => 1 | _ => 0 end.
Definition tokt (t : task H) : N := match t with TRequest _ => 0 | _ => 1 end.
Definition cra (a : act) : N := match a with ARun _ _ _ _ _ _ n => n | ACall _ (DoRequest n) => n | _ => 0 end.
Definition crt (t : task H) : N := match t with TRegister _ _ _ n | TStart _ _ _ n | TRequest n => n | _ => 0 end.
Definition crr (it : ritem) : N := match it with RNetDo (RNRequest n) => n | _ => 0 end.
Definition idn (n : N) : N := n.
Definition run_n (x : H * bytes * bytes * N) : N := snd x.

Record inv (p : pst) (pths : list (list pitem)) (ptr : list pevent) (ptodo : list act) (preg : bool) (up dn : line) (gone : list frame)
           (r : rst) (rths : list (list ritem)) (rtr : list revent) (rtodo : list act) (tasks : list (task H)) (runs : list (H * bytes * bytes * N)) : Prop := {
  i_k : kinv p pths ptr;
  i_p : preach sp g req false p pths ptr;
  i_early : f_sub (p_fl p) = false -> forallb (forallb early) pths = true;
  i_disp : exists cs rem, ptodo = map (ACall tt) cs ++ (if rem : bool then [ARemove sid] else []) /\ nets ptr ++ head_nets pths ++ flat_map netc cs = effects gone /\
           preg = f_sub (p_fl p) && (negb (ended gone) || rem) /\ (rem = true -> ended gone = true);
  i_up : strangers sid up /\ Forall (fun f => up_frame f /\ In f (psent ptr)) (ours up);
  i_dn : strangers sid dn /\ Forall (fun f => good f /\ is_answer f = true) (ours dn);
  i_rinv : ResponderProofs.inv r rths rtr;
  i_rser : sinv sid r rths rtr;
  i_rno : forallb (forallb no_in) rths = true /\ Forall (Forall fit) rths /\ f_sub (r_in r) = false /\ sent_frames rtr = answers rtr /\ Forall sendable_call (out_calls rtr);
  i_todo : Forall (act_ok ptr) rtodo;
  i_tasks : Forall (task_ok ptr) tasks;
  i_runs : Forall (fun x => match x with (h, d, m, n) => run_ok ptr h d m n end) runs;
  i_rq : runs = [] -> f_sub (r_out r) = false /\ r_sub r = false /\ forallb (forallb rearly) rths = true /\ sent_frames rtr = [];
  i_link : match K with Some _ => gone ++ ours dn = sent_frames rtr | None => Forall (eq refusal) (gone ++ ours dn) end;
  i_dorm : f_sub (p_fl p) = false -> ours up = [] /\ ours dn = [] /\ gone = [] /\ ptodo = [] /\ rtodo = [] /\ tasks = [] /\ runs = [];
  i_tok : nsum tok (psent ptr) = nsum tok (ours up) + nsum toka rtodo + nsum tokt tasks + N.of_nat (match K with Some _ => length runs | None => length (gone ++ ours dn) end);
  i_cred : nsum credit (ours up) + nsum cra rtodo + nsum crt tasks + nsum (nsum crr) rths + nsum run_n runs + nsum idn (net_requests rtr) <= nsum credit (psent ptr) }.

Definition sys (c : conf H) : Prop := exists up dn gone, c_up c = encode up /\ c_down c = encode dn /\
  inv (c_p c) (c_pths c) (c_ptr c) (c_ptodo c) (c_preg c) up dn gone (c_r c) (c_rths c) (c_rtr c) (c_rtodo c) (c_tasks c) (c_runs c).

(** ** Start *)
Lemma sys_init : forall n m, sys (stream_create n m).
Proof.
  intros n m. exists [], [], []. split; [reflexivity|]. split; [reflexivity|]. unfold stream_create. cbn [c_p c_pths c_ptr c_ptodo c_preg c_r c_rths c_rtr c_rtodo c_tasks c_runs].
  assert (Q : held (repeat [RO FUser] (S m)) = []) by (induction m; [reflexivity|assumption]).
  constructor.
  - apply kinv_init.
  - apply (p_init sp g req false (S n)).
  - intros _. induction (S n); [reflexivity|assumption].
  - exists [], false. repeat split; discriminate.
  - split; constructor.
  - split; constructor.
  - constructor; rewrite ?Q; try reflexivity; [apply Nat.le_0_l|left; reflexivity|discriminate].
  - apply (sinv_init sid (S m)).
  - clear Q. split; [induction (S m); [reflexivity|assumption]|]. split; [induction (S m); [constructor|]; constructor; [repeat constructor|assumption]|]. split; [reflexivity|]. split; [reflexivity|]. constructor.
  - constructor.
  - constructor.
  - constructor.
  - intros _. repeat split. clear Q. induction (S m); [reflexivity|assumption].
  - destruct K; [reflexivity|constructor].
  - repeat split.
  - destruct K; reflexivity.
  - assert (Z : nsum (nsum crr) (repeat [RO FUser] (S m)) = 0) by (clear Q; induction (S m) as [|k IH]; [reflexivity|cbn [repeat]; rewrite nsum_cons, IH; reflexivity]). rewrite Z. apply N.le_refl.
Qed.

(** ** Growing traces *)
Lemma opened_mono : forall ptr evs n, opened_with ptr n -> opened_with (ptr ++ evs) n.
Proof. intros ptr evs n (r & I & E). exists r. split; [|exact E]. rewrite psent_app. apply in_or_app. left; exact I. Qed.
Lemma run_mono : forall ptr evs h d m n, run_ok ptr h d m n -> run_ok (ptr ++ evs) h d m n.
Proof. intros ptr evs h d m n (A & B & C & D). repeat split; try assumption. apply opened_mono. exact D. Qed.
Lemma act_mono : forall ptr evs l, Forall (act_ok ptr) l -> Forall (act_ok (ptr ++ evs)) l.
Proof. intros ptr evs l F. eapply Forall_impl; [|exact F]. intros a A. destruct a; try exact A. destruct A as [A B]. split; [exact A|]. apply run_mono. exact B. Qed.
Lemma task_mono : forall ptr evs l, Forall (task_ok ptr) l -> Forall (task_ok (ptr ++ evs)) l.
Proof. intros ptr evs l F. eapply Forall_impl; [|exact F]. intros a A. destruct a; try exact A; apply run_mono; exact A. Qed.
Lemma runs_mono : forall ptr evs l, Forall (fun x : H * bytes * bytes * N => match x with (h, d, m, n) => run_ok ptr h d m n end) l -> Forall (fun x => match x with (h, d, m, n) => run_ok (ptr ++ evs) h d m n end) l.
Proof. intros ptr evs l F. eapply Forall_impl; [|exact F]. intros [[[h d] m] n] A. apply run_mono. exact A. Qed.

(** ** The requester *)
Lemma step_no_net : forall st it st' its new evs, pstep st it = Some (st', its, new, evs) ->
  forallb not_net its = true /\ nets evs = match it with PNetDo n => [n] | _ => [] end.
Proof.
  intros st it st' its new evs X.
  assert (N : forall l, forallb not_net (map PI l) = true) by (induction l; [reflexivity|assumption]).
  assert (G : forall i, match fstep sp g (p_fl st) i with Some (fl, its, new, evs) => Some (mkP fl (p_first st) (p_complete st), map PI its, map (map PI) new, map PV evs) | None => None end = Some (st', its, new, evs) -> forallb not_net its = true /\ nets evs = []).
  { intros i Z. destruct (fstep sp g (p_fl st) i) as [[[[fl is] nw] ev]|]; [|discriminate Z]. injection Z as <- <- <- <-. split; [apply N|apply nets_PV]. }
  destruct it as [it|n|]; [|destruct n; cbn [ProxyModel.pstep] in X; injection X as <- <- <- <-; destruct (f_sub (p_fl st)); split; reflexivity|cbn [ProxyModel.pstep] in X; injection X as <- <- <- <-; split; reflexivity].
  destruct it as [|n|c|c|on e| | |n|n|n|sg|sg]; try (match type of X with ProxyModel.pstep _ _ _ _ _ (_ ?i) = _ => exact (G i X) end).
  - destruct c; try (match type of X with ProxyModel.pstep _ _ _ _ _ (_ ?i) = _ => exact (G i X) end). cbn [ProxyModel.pstep fstep] in X. destruct (f_sub (p_fl st)); [discriminate X|]. injection X as <- <- <- <-. split; reflexivity.
  - destruct on; [|exact (G (FEmit false e) X)]. destruct e; try (match type of X with ProxyModel.pstep _ _ _ _ _ (_ ?i) = _ => exact (G i X) end); cbn [ProxyModel.pstep] in X; [destruct (p_complete st); [|destruct (p_first st)]|]; injection X as <- <- <- <-; split; reflexivity.
Qed.
Lemma clean_not_net : forall it, clean it = true -> not_net it = true.
Proof. destruct it; reflexivity || discriminate. Qed.
Lemma head_clean : forall d us, forallb clean d = true -> head_nets (d :: us) = [].
Proof. intros [|[|n|] d] us C; try reflexivity. discriminate C. Qed.
Lemma head_not_net : forall d us, (match d with [] => True | it :: _ => not_net it = true end) -> head_nets (d :: us) = [].
Proof. intros [|[|n|] d] us C; try reflexivity. discriminate C. Qed.
(** What the steps of the requester do to [head_nets]. *)
Lemma head_step : forall p pths ptr l it stack rest its new, kinv p pths ptr -> pths = l ++ (it :: stack) :: rest -> forallb not_net its = true ->
  head_nets pths = match it with PNetDo n => [n] | _ => [] end ++ head_nets (l ++ (its ++ stack) :: rest ++ new) /\ (l <> [] -> not_net it = true).
Proof.
  intros p pths ptr l it stack rest its new [(d & us & E & U & S & _)] -> N. destruct l as [|x l]; cbn [app] in *.
  - injection E as <- <-. split; [|congruence]. rewrite (head_not_net (its ++ stack)).
    + destruct it; reflexivity.
    + destruct its as [|i is]; [|cbn [forallb] in N; apply andb_true_iff in N; tauto]. cbn [app]. destruct stack as [|s stack]; [exact Logic.I|]. apply clean_not_net.
      destruct S as [S|(it' & t & S & _ & Sc)]; [cbn [forallb] in S; rewrite !andb_true_iff in S; tauto|]. injection S as <- <-. cbn [forallb] in Sc. apply andb_true_iff in Sc. tauto.
  - injection E as <- <-. destruct (clean_split _ _ _ U) as (_ & U2 & _). cbn [forallb] in U2. apply andb_true_iff in U2. destruct U2 as [U2 _]. assert (Nn := clean_not_net _ U2). split; [|intros _; exact Nn]. destruct it; try discriminate Nn; reflexivity.
Qed.

Lemma early_split : forall l (it : list pitem) rest, forallb (forallb early) (l ++ it :: rest) = true -> forallb (forallb early) l = true /\ forallb early it = true /\ forallb (forallb early) rest = true.
Proof. intros l it rest E. rewrite forallb_app in E. cbn [forallb] in E. rewrite !andb_true_iff in E. tauto. Qed.

Lemma pcalls_side : forall f, pcalls f = true -> side_call (PI (FDo f)) = true /\ early (PI (FDo f)) = true.
Proof. intros f P. destruct f; discriminate P || (split; reflexivity). Qed.

Lemma m_pcall : forall p l stack rest ptr ptodo preg up dn gone r rths rtr rtodo tasks runs f,
  inv p (l ++ (PI FUser :: stack) :: rest) ptr ptodo preg up dn gone r rths rtr rtodo tasks runs -> pcalls f = true ->
  inv p (l ++ (PI (FDo f) :: PI FUser :: stack) :: rest) ptr ptodo preg up dn gone r rths rtr rtodo tasks runs.
Proof.
  intros p l stack rest ptr ptodo preg up dn gone r rths rtr rtodo tasks runs f [] P. destruct (pcalls_side f P) as [Ps Pe]. constructor; try assumption.
  - apply kinv_call; assumption.
  - apply p_call; assumption.
  - intro F. destruct (early_split _ _ _ (i_early0 F)) as (A & B & C). rewrite forallb_app. cbn [forallb]. rewrite A, Pe, C. cbn [forallb] in B. rewrite B. reflexivity.
  - replace (head_nets (l ++ (PI (FDo f) :: PI FUser :: stack) :: rest)) with (head_nets (l ++ (PI FUser :: stack) :: rest)) by (destruct l; reflexivity). assumption.
Qed.
Lemma m_preturn : forall p l it stack rest ptr ptodo preg up dn gone r rths rtr rtodo tasks runs,
  inv p (l ++ (PI FUser :: it :: stack) :: rest) ptr ptodo preg up dn gone r rths rtr rtodo tasks runs ->
  inv p (l ++ (it :: stack) :: rest) ptr ptodo preg up dn gone r rths rtr rtodo tasks runs.
Proof.
  intros p l it stack rest ptr ptodo preg up dn gone r rths rtr rtodo tasks runs []. constructor; try assumption.
  - apply kinv_return; assumption.
  - apply p_return; [assumption|discriminate].
  - intro F. destruct (early_split _ _ _ (i_early0 F)) as (A & B & C). rewrite forallb_app. cbn [forallb] in *. cbn [early andb] in B. rewrite A, C, B. reflexivity.
  - replace (head_nets (l ++ (it :: stack) :: rest)) with (head_nets (l ++ (PI FUser :: it :: stack) :: rest)); [assumption|]. destruct l as [|x l]; [|reflexivity]. cbn [app]. destruct i_k0 as [(d & us & E & U & S & _)]. cbn [app] in E. injection E as <- <-.
    destruct S as [S|(it' & t & S & Sh & _)]; [|injection S as <- <-; discriminate Sh]. cbn [forallb] in S. rewrite (head_clean (it :: stack)) by (cbn [forallb]; rewrite !andb_true_iff in *; tauto). reflexivity.
Qed.

Lemma m_pstep : forall p l it stack rest ptr ptodo preg up dn gone r rths rtr rtodo tasks runs st' its new evs,
  inv p (l ++ (it :: stack) :: rest) ptr ptodo preg up dn gone r rths rtr rtodo tasks runs -> pstep p it = Some (st', its, new, evs) ->
  Forall good (psent evs) /\ inv st' (l ++ (its ++ stack) :: rest ++ new) (ptr ++ evs) ptodo (registers_now evs || preg) (up ++ map inl (psent evs)) dn gone r rths rtr rtodo tasks runs.
Proof.
  intros p l it stack rest ptr ptodo preg up dn gone r rths rtr rtodo tasks runs st' its new evs [] X.
  destruct (any_step sp g sid data md _ _ _ _ _ _ X (kinv_item _ _ _ _ _ _ _ i_k0)) as [Fu Fs]. destruct (step_no_net _ _ _ _ _ _ X) as [Nn Ne].
  split; [eapply Forall_impl; [|exact Fu]; intros f; apply up_good; assumption|]. constructor; try assumption.
  - eapply kinv_step; [exact i_k0|exact X|]. intros [n ->]. destruct (f_sub (p_fl p)) eqn:Fp; [reflexivity|]. destruct (early_split _ _ _ (i_early0 eq_refl)) as (_ & B & _). discriminate B.
  - eapply p_step; eassumption.
  - intro F. rewrite Fs in F. apply orb_false_iff in F. destruct F as [F1 F2]. destruct (early_split _ _ _ (i_early0 F1)) as (A & B & C). cbn [forallb] in B. apply andb_true_iff in B. destruct B as [B1 B2].
    destruct (early_step sp g sid data md _ _ _ _ _ _ B1 F1 X) as [Z|(_ & -> & -> & _)]; [rewrite Fs, F1, F2 in Z; discriminate Z|]. cbn [app]. rewrite app_nil_r, forallb_app. cbn [forallb]. rewrite A, B2, C. reflexivity.
  - destruct i_disp0 as (cs & rem & T & E & R & M). exists cs, rem. split; [exact T|]. destruct (head_step _ _ _ l it stack rest its new i_k0 eq_refl Nn) as [Hd _]. split; [|split; [|exact M]].
    + rewrite nets_app, Ne, <- E, Hd, <- !app_assoc. reflexivity.
    + rewrite R, Fs. destruct (registers_now evs) eqn:Rg; [|rewrite orb_false_r; reflexivity]. destruct (first_step sp g sid data md _ _ _ _ _ _ X Rg) as [_ F0]. destruct (i_dorm0 F0) as (_ & _ & -> & _). rewrite F0. reflexivity.
  - destruct i_up0 as [A B]. split; [apply strangers_inl; exact A|]. rewrite ours_app, ours_inl. apply Forall_app. rewrite psent_app. split.
    + eapply Forall_impl; [|exact B]. intros f [Z1 Z2]. split; [exact Z1|]. apply in_or_app. left; exact Z2.
    + apply Forall_forall. intros f Hf. split; [rewrite Forall_forall in Fu; exact (Fu f Hf)|]. apply in_or_app. right; exact Hf.
  - apply act_mono; assumption.
  - apply task_mono; assumption.
  - apply runs_mono; assumption.
  - intro F. rewrite Fs in F. apply orb_false_iff in F. destruct F as [F1 F2]. destruct (early_split _ _ _ (i_early0 F1)) as (A & B & C). cbn [forallb] in B. apply andb_true_iff in B. destruct B as [B1 B2].
    destruct (early_step sp g sid data md _ _ _ _ _ _ B1 F1 X) as [Z|(_ & _ & _ & -> & _)]; [rewrite Fs, F1, F2 in Z; discriminate Z|]. cbn [map]. rewrite app_nil_r. exact (i_dorm0 F1).
  - rewrite psent_app, ours_app, ours_inl, !nsum_app, i_tok0. lia.
  - rewrite psent_app, ours_app, ours_inl, !nsum_app. lia.
Qed.

Lemma is_answer_not_request : forall f, is_answer f = true -> is_request f = false.
Proof. destruct f; reflexivity || discriminate. Qed.

(** A frame of this stream is received. *)
Lemma m_precv : forall p pths ptr preg up f dn gone r rths rtr rtodo tasks runs, inv p pths ptr [] preg up (inl f :: dn) gone r rths rtr rtodo tasks runs -> head_nets pths = [] ->
  (good f /\ is_answer f = true) /\ inv p pths ptr (if preg then doing sid f else []) preg up dn (gone ++ [f]) r rths rtr rtodo tasks runs.
Proof.
  intros p pths ptr preg up f dn gone r rths rtr rtodo tasks runs [] Hn. destruct i_dn0 as [A B]. cbn [ours flat_map app] in *. fold (ours dn) in *.
  split; [inversion B; assumption|]. constructor; try assumption.
  - destruct i_disp0 as (cs & rem & T & E & R & M). assert (cs = [] /\ rem = false) as [-> ->].
    { destruct cs; [|discriminate T]. destruct rem; [discriminate T|]. split; reflexivity. }
    cbn [flat_map] in E. rewrite app_nil_r in E. rewrite orb_false_r in R. destruct (f_sub (p_fl p)) eqn:Fp; [|destruct (i_dorm0 eq_refl) as (_ & Z & _); discriminate Z].
    cbn [andb] in R. destruct (ended gone) eqn:Eg; subst preg.
    + exists [], false. split; [reflexivity|]. cbn [negb]. split; [cbn [flat_map]; rewrite app_nil_r, E, effects_app, Eg, app_nil_r; reflexivity|]. split; [rewrite ended_app, Eg; reflexivity|discriminate].
    + cbn [negb]. exists (asks f), (ends_stream f). split; [reflexivity|]. split; [rewrite app_assoc, E, effects_app, Eg; f_equal; unfold effects, fx; destruct (ends_stream f); rewrite app_nil_r; reflexivity|].
      split; [rewrite ended_app, Eg; cbn [ended existsb orb]; rewrite orb_false_r; destruct (ends_stream f); reflexivity|]. intro Z. rewrite ended_app. cbn [ended existsb]. rewrite Z. rewrite orb_true_r. reflexivity.
  - split; [inversion A; assumption|inversion B; assumption].
  - rewrite <- app_assoc. exact i_link0.
  - intro Z. destruct (i_dorm0 Z) as (_ & Y & _). discriminate Y.
  - rewrite <- app_assoc. exact i_tok0.
Qed.
Lemma m_pskip : forall p pths ptr ptodo preg up b dn gone r rths rtr rtodo tasks runs, inv p pths ptr ptodo preg up (inr b :: dn) gone r rths rtr rtodo tasks runs ->
  foreign sid b /\ inv p pths ptr ptodo preg up dn gone r rths rtr rtodo tasks runs.
Proof. intros p pths ptr ptodo preg up b dn gone r rths rtr rtodo tasks runs []. destruct i_dn0 as [A B]. split; [inversion A; assumption|]. constructor; try assumption. split; [inversion A; assumption|exact B]. Qed.

Lemma m_pact_call : forall p rest ptr s f n todo preg up dn gone r rths rtr rtodo tasks runs, inv p ([PI FUser] :: rest) ptr (ACall s f :: todo) preg up dn gone r rths rtr rtodo tasks runs -> net_call f = Some n ->
  inv p ([PNetDo n; PI FUser] :: rest) ptr todo preg up dn gone r rths rtr rtodo tasks runs.
Proof.
  intros p rest ptr s f n todo preg up dn gone r rths rtr rtodo tasks runs [] Nc. constructor; try assumption.
  - apply kinv_net. exact i_k0.
  - apply (p_call sp g req false p [] [] rest ptr (PNetDo n)); [exact i_p0|reflexivity].
  - intro F. destruct (i_dorm0 F) as (_ & _ & _ & Z & _). discriminate Z.
  - destruct i_disp0 as (cs & rem & T & E & R & M). destruct cs as [|c cs]; [destruct rem; discriminate T|]. cbn [map app] in T. injection T as _ <- ->. exists cs, rem. split; [reflexivity|]. split; [|split; assumption].
    rewrite <- E. cbn [head_nets flat_map app]. unfold netc at 2. rewrite Nc. reflexivity.
  - intro F. destruct (i_dorm0 F) as (_ & _ & _ & Z & _). discriminate Z.
Qed.
Lemma m_pact_remove : forall p rest ptr i todo preg up dn gone r rths rtr rtodo tasks runs, inv p ([PI FUser] :: rest) ptr (ARemove i :: todo) preg up dn gone r rths rtr rtodo tasks runs ->
  inv p ([PI FUser] :: rest) ptr todo false up dn gone r rths rtr rtodo tasks runs.
Proof.
  intros p rest ptr i todo preg up dn gone r rths rtr rtodo tasks runs []. constructor; try assumption.
  - destruct i_disp0 as (cs & rem & T & E & R & M). destruct cs as [|c cs]; [|discriminate T]. destruct rem; [|discriminate T]. injection T as -> ->. exists [], false. split; [reflexivity|]. split; [exact E|]. split; [|discriminate]. rewrite (M eq_refl), andb_false_r. reflexivity.
  - intro F. destruct (i_dorm0 F) as (_ & _ & _ & Z & _). discriminate Z.
Qed.
End Sys.
