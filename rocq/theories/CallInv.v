(** The calls made by one side: what is on its way for each of them. *)
From Coq Require Import List NArith ZArith Bool Lia.
From Coq Require Import ZifyBool ZifyNat ZifyN.
From Verif Require Import Base BaseLemmas FramesModel FramesSpec InvokeModel LookupModel LookupSpec LookupProofs StreamIdModel StreamIdSpec MonoModel ProxyModel DispatchModel DispatchSpec CallModel CallSpec.
Import ListNotations.
Open Scope N_scope.

Definition cnt {A} (key : A -> N) (sid : N) (l : list A) : nat := length (filter (fun x => key x =? sid) l).
Definition b2n (b : bool) : nat := if b then 1%nat else 0%nat.
Lemma cnt_app : forall {A} (key : A -> N) sid a b, cnt key sid (a ++ b) = (cnt key sid a + cnt key sid b)%nat.
Proof. intros. unfold cnt. rewrite filter_app, app_length. reflexivity. Qed.
Lemma cnt_cons : forall {A} (key : A -> N) sid x l, cnt key sid (x :: l) = (b2n (N.eqb (key x) sid) + cnt key sid l)%nat.
Proof. intros. unfold cnt. cbn [filter]. destruct (key x =? sid); reflexivity. Qed.
Lemma cnt_nil : forall {A} (key : A -> N) sid, cnt key sid [] = 0%nat.
Proof. reflexivity. Qed.
Lemma cnt_none : forall {A} (key : A -> N) sid l, (forall x, In x l -> key x <> sid) -> cnt key sid l = 0%nat.
Proof. intros A key sid l Hn. induction l as [|x l IH]; [reflexivity|]. rewrite cnt_cons, IH by (intros; apply Hn; right; assumption). destruct (N.eqb_spec (key x) sid) as [X|]; [|reflexivity]. exfalso. apply (Hn x); [left; reflexivity|exact X]. Qed.
Lemma cnt_in : forall {A} (key : A -> N) x l, In x l -> (1 <= cnt key (key x) l)%nat.
Proof. intros A key x l Hi. apply in_split in Hi. destruct Hi as (a & b & ->). rewrite cnt_app, cnt_cons, N.eqb_refl. cbn. lia. Qed.

Section Inv.
Context {H : Type}.
Context (w : side -> site) (tbl : side -> ikind -> list (option H)).
Context (X : side).
Notation act := (act H nat).
Notation run := (run H).

Definition task_sid (a : act) : N := match a with ASend f => frame_sid f | ARun _ _ sid _ _ _ _ => sid | _ => 0 end.
Definition req : Type := (N * bytes * bytes)%type.
Definition req_sid (q : req) : N := fst (fst q).
Definition rep : Type := (N * (pay + bytes))%type.
Definition open_runs (l : list run) : list run := filter (fun r => match r_out r with None => true | _ => false end) l.
Definition finished (c : call) : bool := match results c with [] => false | _ => true end.

Definition refusal (c : call) : bytes := if len (c_md c) <? 8 then invalid_metadata else not_found.
Definition nobody (c : call) : Prop := forall h, ~ names (tbl (other X)) RR (c_md c) h.
Definition task_for (c : call) (t : act) : Prop :=
  (nobody c /\ t = ASend (answer_of (c_sid c) (inr (refusal c))))
  \/ (exists h parent, names (tbl (other X)) RR (c_md c) h /\ t = ARun RR h (c_sid c) (c_data c) (handler_metadata (w (other X)) RR (c_md c)) parent 1).
Definition outcome_in (runs : list run) (c : call) (o : pay + bytes) : Prop :=
  (exists r, In r runs /\ run_for w tbl X c r /\ r_out r = Some o) \/ (nobody c /\ o = inr (refusal c)).
Definition proc_ok (runs : list run) (c : call) : Prop :=
  (c_subscribed c = false /\ c_proc c = new_processor) \/
  (c_subscribed c = true /\ c_proc c = mkProc None None [(false, [])]) \/
  (exists o, c_subscribed c = true /\ c_proc c = mkProc None None [(true, [o])] /\ outcome_in runs c o).
Definition same (c c' : call) : Prop := c_sid c' = c_sid c /\ c_data c' = c_data c /\ c_md c' = c_md c.

Record vinv (calls : list call) (reg : lookup nat) (reqs : list req) (tasks : list act) (runs : list run) (reps : list rep) : Prop := {
  i_len : len calls <= 2^30;
  i_sid : forall k c, nth_error calls k = Some c -> c_sid c = kth_id X (N.of_nat (S k)) /\ sendable (c_data c) (c_md c);
  i_count : forall k c, nth_error calls k = Some c ->
    (cnt req_sid (c_sid c) reqs + cnt task_sid (c_sid c) tasks + cnt r_sid (c_sid c) (open_runs runs) + cnt fst (c_sid c) reps + b2n (finished c) = b2n (c_subscribed c))%nat;
  i_once : forall k c, nth_error calls k = Some c ->
    (cnt req_sid (c_sid c) reqs + cnt task_sid (c_sid c) tasks + cnt r_sid (c_sid c) runs <= b2n (c_subscribed c))%nat;
  i_req : forall q, In q reqs -> exists k c, nth_error calls k = Some c /\ q = (c_sid c, c_data c, c_md c);
  i_task : forall t, In t tasks -> exists k c, nth_error calls k = Some c /\ task_for c t;
  i_run : forall r, In r runs -> exists k c, nth_error calls k = Some c /\ run_for w tbl X c r;
  i_rep : forall q, In q reps -> exists k c, nth_error calls k = Some c /\ fst q = c_sid c /\ outcome_in runs c (snd q) /\ sendable_out (snd q);
  i_proc : forall k c, nth_error calls k = Some c -> proc_ok runs c;
  i_reg : exists ops, lrun empty_lookup ops = Some reg /\
    (forall id, In id (ids (chain_after ops)) -> exists k c, nth_error calls k = Some c /\ c_sid c = id /\ c_subscribed c = true) /\
    (forall k c, nth_error calls k = Some c -> c_subscribed c = true -> finished c = false -> chain_get (chain_after ops) (c_sid c) = Some k) }.

(** ** Small facts *)
Lemma kth_inj : forall i j : nat, N.of_nat (S i) <= 2^30 -> N.of_nat (S j) <= 2^30 -> kth_id X (N.of_nat (S i)) = kth_id X (N.of_nat (S j)) -> i = j.
Proof.
  intros i j Hi Hj E. unfold kth_id in E. change (2^30) with 1073741824 in *. change (2^31) with 2147483648 in *. destruct X.
  - rewrite !N.mod_small in E by lia. lia.
  - destruct (N.eq_dec (N.of_nat (S i)) 1073741824) as [Ei|Ei], (N.eq_dec (N.of_nat (S j)) 1073741824) as [Ej|Ej].
    + lia.
    + rewrite Ei in E. change ((2 * 1073741824) mod 2147483648) with 0 in E. rewrite N.mod_small in E by lia. lia.
    + rewrite Ej in E. change ((2 * 1073741824) mod 2147483648) with 0 in E. rewrite N.mod_small in E by lia. lia.
    + rewrite !N.mod_small in E by lia. lia.
Qed.
Lemma nth_len : forall (calls : list call) k c, nth_error calls k = Some c -> (k < length calls)%nat.
Proof using. clear. intros calls k c E. apply nth_error_Some. congruence. Qed.
Lemma call_unique : forall calls reg reqs tasks runs reps, vinv calls reg reqs tasks runs reps ->
  forall i j c d, nth_error calls i = Some c -> nth_error calls j = Some d -> c_sid c = c_sid d -> i = j /\ c = d.
Proof.
  intros calls reg reqs tasks runs reps V i j c d Ei Ej E. assert (I : i = j).
  { assert (L := i_len _ _ _ _ _ _ V). unfold len in L. apply nth_len in Ei as Li. apply nth_len in Ej as Lj.
    destruct (i_sid _ _ _ _ _ _ V _ _ Ei) as [Si _]. destruct (i_sid _ _ _ _ _ _ V _ _ Ej) as [Sj _]. apply kth_inj; [lia|lia|congruence]. }
  subst j. split; [reflexivity|congruence].
Qed.
Lemma names_fun : forall md h h', names (tbl (other X)) RR md h -> names (tbl (other X)) RR md h' -> h = h'.
Proof. intros md h h' [_ A] [_ B]. congruence. Qed.

Definition upd (k : nat) (f : call -> call) (calls : list call) : list call :=
  match nth_error calls k with Some c => firstn k calls ++ f c :: skipn (S k) calls | None => calls end.
Lemma upd_nth : forall k f calls j, nth_error (upd k f calls) j = if Nat.eqb j k then option_map f (nth_error calls k) else nth_error calls j.
Proof.
  intros k f calls j. unfold upd. destruct (nth_error calls k) as [c|] eqn:E.
  - revert calls j E. induction k as [|k IH]; intros [|a calls] [|j] E; try discriminate E; cbn in E |- *; try reflexivity. apply IH. exact E.
  - destruct (Nat.eqb_spec j k) as [->|]; [exact E|reflexivity].
Qed.
Lemma upd_len : forall k f calls, length (upd k f calls) = length calls.
Proof using. clear.
  intros k f calls. unfold upd. destruct (nth_error calls k) as [c|] eqn:E; [|reflexivity]. apply nth_len in E. rewrite app_length. cbn [length]. rewrite firstn_length, skipn_length. lia.
Qed.
Lemma run_for_same : forall c c' r, same c c' -> run_for w tbl X c r -> run_for w tbl X c' r.
Proof. intros c c' r (A & B & C) (D & E & F & G). unfold run_for. rewrite A, B, C. auto. Qed.
Lemma task_for_same : forall c c' t, same c c' -> task_for c t -> task_for c' t.
Proof.
  intros c c' t (A & B & C) T. unfold task_for, nobody, refusal in *. rewrite A, B, C. exact T.
Qed.
Lemma outcome_same : forall runs c c' o, same c c' -> outcome_in runs c o -> outcome_in runs c' o.
Proof.
  intros runs c c' o S [(r & A & B & C)|[A B]]; [left; exists r; split; [exact A|]; split; [exact (run_for_same _ _ _ S B)|exact C]|right]. destruct S as (S1 & S2 & S3). unfold nobody, refusal in *. rewrite S3. auto.
Qed.
Lemma outcome_more : forall runs runs' c o, (forall r, In r runs -> r_out r <> None -> In r runs') -> outcome_in runs c o -> outcome_in runs' c o.
Proof. intros runs runs' c o I [(r & A & B & C)|A]; [left; exists r; split; [apply I; [exact A|congruence]|auto]|right; exact A]. Qed.
Lemma proc_more : forall runs runs' c, (forall r, In r runs -> r_out r <> None -> In r runs') -> proc_ok runs c -> proc_ok runs' c.
Proof. intros runs runs' c I [A|[A|(o & A & B & C)]]; [left; exact A|right; left; exact A|right; right; exists o; split; [exact A|]; split; [exact B|exact (outcome_more _ _ _ _ I C)]]. Qed.
Lemma task_for_sid : forall c t, task_for c t -> task_sid t = c_sid c.
Proof. intros c t [[_ ->]|(h & p & _ & ->)]; reflexivity. Qed.
Lemma open_app : forall a b : list run, open_runs (a ++ b) = open_runs a ++ open_runs b.
Proof. intros. apply filter_app. Qed.

(** ** What can happen *)
Section Steps.
Context (calls : list call) (reg : lookup nat) (reqs : list req) (tasks : list act) (runs : list run) (reps : list rep).
Context (V : vinv calls reg reqs tasks runs reps).

Lemma nth_snoc : forall (c0 : call) k c, nth_error (calls ++ [c0]) k = Some c -> (nth_error calls k = Some c /\ (k < length calls)%nat) \/ (k = length calls /\ c = c0).
Proof.
  intros c0 k c E. destruct (Nat.lt_ge_cases k (length calls)) as [L|L].
  - rewrite nth_error_app1 in E by exact L. auto.
  - rewrite nth_error_app2 in E by exact L. right. destruct (k - length calls)%nat as [|d] eqn:D; [|destruct d; discriminate E]. injection E as <-. split; [lia|reflexivity].
Qed.
Lemma nth_old : forall (c0 : call) k c, nth_error calls k = Some c -> nth_error (calls ++ [c0]) k = Some c.
Proof. intros c0 k c E. rewrite nth_error_app1; [exact E|exact (nth_len _ _ _ E)]. Qed.

Lemma t_call : forall d m, sendable d m -> len calls < 2^30 ->
  vinv (calls ++ [mkCall (kth_id X (N.of_nat (S (length calls)))) d m false new_processor]) reg reqs tasks runs reps.
Proof.
  intros d m Sd L. set (c0 := mkCall _ d m false new_processor).
  assert (Fr : forall k c, nth_error calls k = Some c -> c_sid c <> c_sid c0).
  { intros k c E Q. destruct (i_sid _ _ _ _ _ _ V _ _ E) as [Si _]. rewrite Si in Q. cbn [c_sid c0] in Q. assert (Lk := nth_len _ _ _ E). unfold len in L. apply kth_inj in Q; lia. }
  assert (Z : cnt req_sid (c_sid c0) reqs = 0%nat /\ cnt task_sid (c_sid c0) tasks = 0%nat /\ cnt r_sid (c_sid c0) runs = 0%nat /\ cnt r_sid (c_sid c0) (open_runs runs) = 0%nat /\ cnt fst (c_sid c0) reps = 0%nat).
  { assert (Zr : forall r, In r runs -> r_sid r <> c_sid c0) by (intros r Hr; destruct (i_run _ _ _ _ _ _ V _ Hr) as (k & c & E & (E1 & _)); rewrite E1; exact (Fr _ _ E)).
    split; [|split; [|split; [|split]]]; apply cnt_none.
    - intros q Hq. destruct (i_req _ _ _ _ _ _ V _ Hq) as (k & c & E & ->). exact (Fr _ _ E).
    - intros t Ht. destruct (i_task _ _ _ _ _ _ V _ Ht) as (k & c & E & T). rewrite (task_for_sid _ _ T). exact (Fr _ _ E).
    - exact Zr.
    - intros r Hr. apply Zr. unfold open_runs in Hr. apply filter_In in Hr. apply Hr.
    - intros q Hq. destruct (i_rep _ _ _ _ _ _ V _ Hq) as (k & c & E & -> & _). exact (Fr _ _ E). }
  destruct Z as (Z1 & Z2 & Z3 & Z4 & Z5). constructor.
  - unfold len in *. rewrite app_length. cbn [length]. lia.
  - intros k c E. destruct (nth_snoc _ _ _ E) as [[E' _]|[-> ->]]; [exact (i_sid _ _ _ _ _ _ V _ _ E')|]. split; [reflexivity|exact Sd].
  - intros k c E. destruct (nth_snoc _ _ _ E) as [[E' _]|[-> ->]]; [exact (i_count _ _ _ _ _ _ V _ _ E')|]. rewrite Z1, Z2, Z4, Z5. reflexivity.
  - intros k c E. destruct (nth_snoc _ _ _ E) as [[E' _]|[-> ->]]; [exact (i_once _ _ _ _ _ _ V _ _ E')|]. rewrite Z1, Z2, Z3. apply Nat.le_0_l.
  - intros q Hq. destruct (i_req _ _ _ _ _ _ V _ Hq) as (k & c & E & E'). exists k, c. split; [exact (nth_old _ _ _ E)|exact E'].
  - intros q Hq. destruct (i_task _ _ _ _ _ _ V _ Hq) as (k & c & E & E'). exists k, c. split; [exact (nth_old _ _ _ E)|exact E'].
  - intros q Hq. destruct (i_run _ _ _ _ _ _ V _ Hq) as (k & c & E & E'). exists k, c. split; [exact (nth_old _ _ _ E)|exact E'].
  - intros q Hq. destruct (i_rep _ _ _ _ _ _ V _ Hq) as (k & c & E & E'). exists k, c. split; [exact (nth_old _ _ _ E)|exact E'].
  - intros k c E. destruct (nth_snoc _ _ _ E) as [[E' _]|[-> ->]]; [exact (i_proc _ _ _ _ _ _ V _ _ E')|]. left. split; reflexivity.
  - destruct (i_reg _ _ _ _ _ _ V) as (ops & R1 & R2 & R3). exists ops. split; [exact R1|]. split.
    + intros id Hid. destruct (R2 id Hid) as (k & c & E & E'). exists k, c. split; [exact (nth_old _ _ _ E)|exact E'].
    + intros k c E. destruct (nth_snoc _ _ _ E) as [[E' _]|[-> ->]]; [exact (R3 k c E')|]. discriminate.
Qed.

(** Changing one call. *)
Section Change.
Context (k0 : nat) (c0 : call) (f : call -> call).
Context (E0 : nth_error calls k0 = Some c0) (Sm : same c0 (f c0)).
Lemma nth_upd : forall k c, nth_error (upd k0 f calls) k = Some c -> (k = k0 /\ c = f c0) \/ (k <> k0 /\ nth_error calls k = Some c).
Proof. intros k c E. rewrite upd_nth, E0 in E. destruct (Nat.eqb_spec k k0) as [->|N0]; [left; cbn in E; split; [reflexivity|congruence]|right; auto]. Qed.
Lemma nth_upd_same : forall k c, nth_error calls k = Some c -> exists c', nth_error (upd k0 f calls) k = Some c' /\ same c c'.
Proof.
  intros k c E. destruct (Nat.eq_dec k k0) as [->|N0].
  - exists (f c0). rewrite upd_nth, Nat.eqb_refl, E0. split; [reflexivity|]. assert (c = c0) by congruence. subst c. exact Sm.
  - exists c. rewrite upd_nth. destruct (Nat.eqb_spec k k0); [contradiction|]. split; [exact E|]. repeat split.
Qed.
Lemma other_sid : forall k c, k <> k0 -> nth_error calls k = Some c -> (c_sid c0 =? c_sid c) = false.
Proof. intros k c N0 E. apply N.eqb_neq. intro Q. apply N0. symmetry. exact (proj1 (call_unique _ _ _ _ _ _ V _ _ _ _ E0 E Q)). Qed.
End Change.

Lemma t_subscribe : forall k c reg', nth_error calls k = Some c -> c_subscribed c = false -> Add reg (c_sid c) k = Some reg' ->
  vinv (upd k (fun c => mkCall (c_sid c) (c_data c) (c_md c) true (MonoModel.pstep (c_proc c) PSubscribe)) calls) reg' (reqs ++ [(c_sid c, c_data c, c_md c)]) tasks runs reps.
Proof.
  intros k c reg' E Sb Ad. set (f := fun c => mkCall (c_sid c) (c_data c) (c_md c) true (MonoModel.pstep (c_proc c) PSubscribe)).
  assert (Sm : same c (f c)) by (repeat split).
  assert (Pc : c_proc c = new_processor) by (destruct (i_proc _ _ _ _ _ _ V _ _ E) as [[_ P]|[[P _]|(o & P & _)]]; congruence).
  assert (Rf : results (f c) = []) by (unfold results, f; cbn [c_proc]; rewrite Pc; reflexivity).
  assert (Rc : results c = []) by (unfold results; rewrite Pc; reflexivity).
  assert (K := i_count _ _ _ _ _ _ V _ _ E). assert (O := i_once _ _ _ _ _ _ V _ _ E). rewrite Sb in K, O. cbn [b2n] in K, O.
  constructor.
  - unfold len. rewrite upd_len. exact (i_len _ _ _ _ _ _ V).
  - intros j d Ej. destruct (nth_upd _ _ f E _ _ Ej) as [[-> ->]|[_ Ej']]; [exact (i_sid _ _ _ _ _ _ V _ _ E)|exact (i_sid _ _ _ _ _ _ V _ _ Ej')].
  - intros j d Ej. rewrite cnt_app, cnt_cons, cnt_nil. cbn [req_sid fst]. destruct (nth_upd _ _ f E _ _ Ej) as [[-> ->]|[Nj Ej']].
    + unfold finished. rewrite Rf. cbn [f c_sid c_subscribed b2n]. change (req_sid (c_sid c, c_data c, c_md c)) with (c_sid c). rewrite N.eqb_refl. cbn [b2n]. lia.
    + change (req_sid (c_sid c, c_data c, c_md c)) with (c_sid c). rewrite (other_sid _ _ E _ _ Nj Ej'). assert (Q := i_count _ _ _ _ _ _ V _ _ Ej'). cbn [b2n]. lia.
  - intros j d Ej. rewrite cnt_app, cnt_cons, cnt_nil. change (req_sid (c_sid c, c_data c, c_md c)) with (c_sid c). destruct (nth_upd _ _ f E _ _ Ej) as [[-> ->]|[Nj Ej']].
    + cbn [f c_sid c_subscribed b2n]. rewrite N.eqb_refl. cbn [b2n]. lia.
    + rewrite (other_sid _ _ E _ _ Nj Ej'). assert (Q := i_once _ _ _ _ _ _ V _ _ Ej'). cbn [b2n]. lia.
  - intros q Hq. assert (Q : exists j d, nth_error calls j = Some d /\ q = (c_sid d, c_data d, c_md d)).
    { apply in_app_or in Hq. destruct Hq as [Hq|[<-|[]]]; [exact (i_req _ _ _ _ _ _ V _ Hq)|exists k, c; auto]. }
    destruct Q as (j & d & Ej & ->). destruct (nth_upd_same _ _ f E Sm _ _ Ej) as (d' & Ed & S1 & S2 & S3). exists j, d'. split; [exact Ed|]. rewrite S1, S2, S3. reflexivity.
  - intros t Ht. destruct (i_task _ _ _ _ _ _ V _ Ht) as (j & d & Ej & T). destruct (nth_upd_same _ _ f E Sm _ _ Ej) as (d' & Ed & S). exists j, d'. split; [exact Ed|exact (task_for_same _ _ _ S T)].
  - intros t Ht. destruct (i_run _ _ _ _ _ _ V _ Ht) as (j & d & Ej & T). destruct (nth_upd_same _ _ f E Sm _ _ Ej) as (d' & Ed & S). exists j, d'. split; [exact Ed|exact (run_for_same _ _ _ S T)].
  - intros t Ht. destruct (i_rep _ _ _ _ _ _ V _ Ht) as (j & d & Ej & T1 & T2 & T3). destruct (nth_upd_same _ _ f E Sm _ _ Ej) as (d' & Ed & S). exists j, d'. split; [exact Ed|]. split; [destruct S as (-> & _); exact T1|]. split; [exact (outcome_same _ _ _ _ S T2)|exact T3].
  - intros j d Ej. destruct (nth_upd _ _ f E _ _ Ej) as [[-> ->]|[_ Ej']]; [|exact (i_proc _ _ _ _ _ _ V _ _ Ej')]. right; left. split; [reflexivity|]. unfold f. cbn [c_proc]. rewrite Pc. reflexivity.
  - destruct (i_reg _ _ _ _ _ _ V) as (ops & R1 & R2 & R3). exists (ops ++ [OAdd (c_sid c) k]). split; [|split].
    + clear - R1 Ad. revert R1. generalize (@empty_lookup nat). induction ops as [|o ops IH]; intros l R1; cbn [app lrun] in *; [injection R1 as ->; rewrite Ad; reflexivity|]. destruct o as [i s|i]; [destruct (Add l i s); [|discriminate R1]|destruct (Remove l i); [|discriminate R1]]; exact (IH _ R1).
    + intros id Hid. rewrite chain_after_snoc in Hid. cbn [chain_op] in Hid. unfold chain_add, ids in Hid. rewrite map_app in Hid. apply in_app_or in Hid. destruct Hid as [Hid|[<-|[]]].
      * destruct (R2 id Hid) as (j & d & Ej & D1 & D2). assert (Nj : j <> k) by (intros ->; congruence). exists j, d. rewrite upd_nth. destruct (Nat.eqb_spec j k); [contradiction|]. auto.
      * exists k, (f c). rewrite upd_nth, Nat.eqb_refl, E. repeat split.
    + intros j d Ej Sd Fd. rewrite chain_after_snoc. cbn [chain_op]. unfold chain_add. rewrite get_snoc. destruct (nth_upd _ _ f E _ _ Ej) as [[-> ->]|[Nj Ej']].
      * cbn [f c_sid]. rewrite get_not_in, N.eqb_refl; [reflexivity|]. intro Hid. destruct (R2 _ Hid) as (j & d & Ej2 & D1 & D2). destruct (call_unique _ _ _ _ _ _ V _ _ _ _ Ej2 E D1) as [-> ->]. congruence.
      * rewrite (R3 _ _ Ej' Sd Fd). reflexivity.
Qed.

Lemma t_receive : forall c k t reqs', nth_error calls k = Some c -> reqs = (c_sid c, c_data c, c_md c) :: reqs' -> task_for c t -> vinv calls reg reqs' (tasks ++ [t]) runs reps.
Proof.
  intros c k t reqs' E -> T. assert (Ts := task_for_sid _ _ T). constructor; try apply V.
  - intros j d Ej. rewrite cnt_app, cnt_cons, cnt_nil, Ts. assert (Q := i_count _ _ _ _ _ _ V _ _ Ej). rewrite cnt_cons in Q. cbn [req_sid fst] in Q. change (req_sid (c_sid c, c_data c, c_md c)) with (c_sid c) in Q. lia.
  - intros j d Ej. rewrite cnt_app, cnt_cons, cnt_nil, Ts. assert (Q := i_once _ _ _ _ _ _ V _ _ Ej). rewrite cnt_cons in Q. change (req_sid (c_sid c, c_data c, c_md c)) with (c_sid c) in Q. lia.
  - intros q Hq. apply (i_req _ _ _ _ _ _ V). right. exact Hq.
  - intros s Hs. apply in_app_or in Hs. destruct Hs as [Hs|[<-|[]]]; [exact (i_task _ _ _ _ _ _ V _ Hs)|exists k, c; auto].
Qed.

Lemma t_send : forall l q sid o, tasks = l ++ ASend (answer_of sid o) :: q -> vinv calls reg reqs (l ++ q) runs (reps ++ [(sid, o)]).
Proof.
  intros l q sid o Et. assert (Hin : In (ASend (answer_of sid o)) tasks) by (rewrite Et; apply in_or_app; right; left; reflexivity).
  assert (Ot : forall s, In s (l ++ q) -> In s tasks) by (intros s Hs; rewrite Et; apply in_app_or in Hs; apply in_or_app; destruct Hs; [left|right; right]; assumption).
  destruct (i_task _ _ _ _ _ _ V _ Hin) as (k & c & E & T). assert (T' := T). destruct T as [[Nb T]|(h & p & _ & T)]; [|discriminate T].
  assert (Q : sid = c_sid c /\ o = inr (refusal c)) by (clear - T; destruct o as [[d m]|e]; cbn in T; [discriminate T|]; injection T as -> ->; auto). destruct Q as [-> ->].
  assert (Ts := task_for_sid _ _ T'). constructor; try apply V.
  - intros j d Ej. assert (Q := i_count _ _ _ _ _ _ V _ _ Ej). rewrite Et in Q. rewrite cnt_app, cnt_cons, Ts in Q. rewrite !cnt_app, cnt_cons, cnt_nil. cbn [fst]. lia.
  - intros j d Ej. assert (Q := i_once _ _ _ _ _ _ V _ _ Ej). rewrite Et in Q. rewrite cnt_app, cnt_cons, Ts in Q. rewrite !cnt_app. lia.
  - intros s Hs. exact (i_task _ _ _ _ _ _ V _ (Ot s Hs)).
  - intros s Hs. apply in_app_or in Hs. destruct Hs as [Hs|[<-|[]]]; [exact (i_rep _ _ _ _ _ _ V _ Hs)|]. exists k, c. split; [exact E|]. split; [reflexivity|]. split; [right; auto|]. cbn [snd sendable_out]. unfold refusal. destruct (len (c_md c) <? 8); reflexivity.
Qed.

Lemma t_run : forall l q h sid d m p n, tasks = l ++ ARun RR h sid d m p n :: q -> vinv calls reg reqs (l ++ q) (runs ++ [mkRun h sid d m None]) reps.
Proof.
  intros l q h sid d m p n Et. assert (Hin : In (ARun RR h sid d m p n) tasks) by (rewrite Et; apply in_or_app; right; left; reflexivity).
  assert (Ot : forall s, In s (l ++ q) -> In s tasks) by (intros s Hs; rewrite Et; apply in_app_or in Hs; apply in_or_app; destruct Hs; [left|right; right]; assumption).
  destruct (i_task _ _ _ _ _ _ V _ Hin) as (k & c & E & T). assert (Ts := task_for_sid _ _ T). destruct T as [[_ T]|(h' & p' & Nm & T)]; [discriminate T|]. injection T as <- -> -> -> <- ->.
  assert (Im : forall r, In r runs -> r_out r <> None -> In r (runs ++ [mkRun h (c_sid c) (c_data c) (handler_metadata (w (other X)) RR (c_md c)) None])) by (intros; apply in_or_app; left; assumption).
  constructor; try apply V.
  - intros j d Ej. assert (Q := i_count _ _ _ _ _ _ V _ _ Ej). rewrite Et in Q. rewrite cnt_app, cnt_cons, Ts in Q. rewrite open_app, !cnt_app. cbn [open_runs filter r_out]. rewrite cnt_cons, cnt_nil. cbn [r_sid]. lia.
  - intros j d Ej. assert (Q := i_once _ _ _ _ _ _ V _ _ Ej). rewrite Et in Q. rewrite cnt_app, cnt_cons, Ts in Q. rewrite !cnt_app, cnt_cons, cnt_nil. cbn [r_sid]. lia.
  - intros s Hs. exact (i_task _ _ _ _ _ _ V _ (Ot s Hs)).
  - intros s Hs. apply in_app_or in Hs. destruct Hs as [Hs|[<-|[]]]; [exact (i_run _ _ _ _ _ _ V _ Hs)|]. exists k, c. split; [exact E|]. repeat split; apply Nm || reflexivity.
  - intros s Hs. destruct (i_rep _ _ _ _ _ _ V _ Hs) as (j & d & Ej & D1 & D2 & D3). exists j, d. split; [exact Ej|]. split; [exact D1|]. split; [exact (outcome_more _ _ _ _ Im D2)|exact D3].
  - intros j d Ej. exact (proc_more _ _ _ Im (i_proc _ _ _ _ _ _ V _ _ Ej)).
Qed.

Lemma t_conclude : forall l q h sid d m o, runs = l ++ mkRun h sid d m None :: q -> sendable_out o -> vinv calls reg reqs tasks (l ++ mkRun h sid d m (Some o) :: q) (reps ++ [(sid, o)]).
Proof.
  intros l q h sid d m o Er So. assert (Hin : In (mkRun h sid d m None) runs) by (rewrite Er; apply in_or_app; right; left; reflexivity).
  destruct (i_run _ _ _ _ _ _ V _ Hin) as (k & c & E & Rf). assert (Rs : sid = c_sid c) by apply Rf. subst sid.
  assert (Rf' : run_for w tbl X c (mkRun h (c_sid c) d m (Some o))) by exact Rf.
  assert (Im : forall r, In r runs -> r_out r <> None -> In r (l ++ mkRun h (c_sid c) d m (Some o) :: q)).
  { intros r Hr Nr. rewrite Er in Hr. apply in_app_or in Hr. apply in_or_app. destruct Hr as [Hr|[<-|Hr]]; [left; exact Hr|exfalso; apply Nr; reflexivity|right; right; exact Hr]. }
  constructor; try apply V.
  - intros j e Ej. assert (Q := i_count _ _ _ _ _ _ V _ _ Ej). rewrite Er in Q. rewrite open_app, cnt_app in Q. cbn [open_runs filter r_out] in Q. rewrite cnt_cons in Q. rewrite open_app, !cnt_app. cbn [open_runs filter r_out]. rewrite cnt_cons, cnt_nil. cbn [fst r_sid] in *. unfold open_runs in *. lia.
  - intros j e Ej. assert (Q := i_once _ _ _ _ _ _ V _ _ Ej). rewrite Er in Q. rewrite cnt_app, cnt_cons in *. cbn [r_sid] in *. lia.
  - intros r Hr. apply in_app_or in Hr. destruct Hr as [Hr|[<-|Hr]]; [apply (i_run _ _ _ _ _ _ V); rewrite Er; apply in_or_app; left; exact Hr|exists k, c; auto|apply (i_run _ _ _ _ _ _ V); rewrite Er; apply in_or_app; right; right; exact Hr].
  - intros s Hs. apply in_app_or in Hs. destruct Hs as [Hs|[<-|[]]].
    + destruct (i_rep _ _ _ _ _ _ V _ Hs) as (j & e & Ej & D1 & D2 & D3). exists j, e. split; [exact Ej|]. split; [exact D1|]. split; [exact (outcome_more _ _ _ _ Im D2)|exact D3].
    + exists k, c. split; [exact E|]. split; [reflexivity|]. split; [|exact So]. left. exists (mkRun h (c_sid c) d m (Some o)). split; [apply in_or_app; right; left; reflexivity|]. split; [exact Rf'|reflexivity].
  - intros j e Ej. exact (proc_more _ _ _ Im (i_proc _ _ _ _ _ _ V _ _ Ej)).
Qed.

Lemma remove_get : forall {S} (c : list (entry S)) id id', id <> id' -> chain_get (chain_remove c id) id' = chain_get c id'.
Proof.
  intros S c id id' Nd. induction c as [|[[i s] d] c IH]; [reflexivity|]. cbn [chain_remove]. destruct (N.eqb_spec i id) as [->|N0].
  - destruct d; cbn [chain_get]; [destruct (N.eqb_spec id id'); [contradiction|]; apply get_detach|]. rewrite get_detach. destruct (N.eqb_spec id id'); [contradiction|reflexivity].
  - cbn [chain_get]. rewrite IH. reflexivity.
Qed.
Lemma remove_ids : forall {S} (c : list (entry S)) id x, In x (ids (chain_remove c id)) -> In x (ids c).
Proof.
  intros S c id x. induction c as [|[[i s] d] c IH]; [auto|]. cbn [chain_remove]. destruct (N.eqb i id).
  - destruct d; intro Hx; [cbn [ids map fst] in *; destruct Hx as [Hx|Hx]; [left; exact Hx|right; change (In x (ids (detach true c))) in Hx; rewrite ids_detach in Hx; exact Hx]|right; rewrite ids_detach in Hx; exact Hx].
  - intros [Hx|Hx]; [left; exact Hx|right; exact (IH Hx)].
Qed.

(** An answer finds the call it is for. *)
Lemma reply_target : forall sid o reps', reps = (sid, o) :: reps' -> exists k c, nth_error calls k = Some c /\ sid = c_sid c /\ c_subscribed c = true /\ finished c = false /\ sendable_out o /\ outcome_in runs c o /\ Get reg sid = Some (Some k).
Proof.
  intros sid o reps' Er. assert (Hin : In (sid, o) reps) by (rewrite Er; left; reflexivity). destruct (i_rep _ _ _ _ _ _ V _ Hin) as (k & c & E & E1 & E2 & E3). cbn [fst snd] in *.
  assert (Q := i_count _ _ _ _ _ _ V _ _ E). rewrite Er, cnt_cons in Q. cbn [fst] in Q. rewrite E1, N.eqb_refl in Q. cbn [b2n] in Q.
  assert (Sb : c_subscribed c = true) by (destruct (c_subscribed c); [reflexivity|cbn [b2n] in Q; lia]). rewrite Sb in Q. cbn [b2n] in Q.
  assert (Fn : finished c = false) by (destruct (finished c); [cbn [b2n] in Q; lia|reflexivity]).
  exists k, c. split; [exact E|]. split; [exact E1|]. split; [exact Sb|]. split; [exact Fn|]. split; [exact E3|]. split; [exact E2|].
  destruct (i_reg _ _ _ _ _ _ V) as (ops & R1 & _ & R3). destruct (refinement ops) as (r & Er2 & G). assert (r = reg) by congruence. subst r. rewrite G, E1, (R3 _ _ E Sb Fn). reflexivity.
Qed.
Lemma remove_ok : forall id, exists reg', Remove reg id = Some reg'.
Proof.
  intro id. destruct (i_reg _ _ _ _ _ _ V) as (ops & R1 & _ & _). destruct (refinement (ops ++ [ORemove id])) as (r & Er & _). exists r. clear - R1 Er. revert R1 Er. generalize (@empty_lookup nat). induction ops as [|o ops IH]; intros l R1 Er; cbn [app lrun] in *.
  - injection R1 as ->. destruct (Remove reg id); [exact Er|discriminate Er].
  - destruct o as [i s|i]; [destruct (Add l i s); [|discriminate R1]|destruct (Remove l i); [|discriminate R1]]; exact (IH _ R1 Er).
Qed.
Lemma add_ok : forall id k, exists reg', Add reg id k = Some reg'.
Proof.
  intros id k. destruct (i_reg _ _ _ _ _ _ V) as (ops & R1 & _ & _). destruct (refinement (ops ++ [OAdd id k])) as (r & Er & _). exists r. clear - R1 Er. revert R1 Er. generalize (@empty_lookup nat). induction ops as [|o ops IH]; intros l R1 Er; cbn [app lrun] in *.
  - injection R1 as ->. destruct (Add reg id k); [exact Er|discriminate Er].
  - destruct o as [i s|i]; [destruct (Add l i s); [|discriminate R1]|destruct (Remove l i); [|discriminate R1]]; exact (IH _ R1 Er).
Qed.

Definition settle_call (o : pay + bytes) (c : call) : call := on_proc (match o with inl v => PSuccess v | inr e => PError e end) c.
Lemma t_reply : forall k c o reps' reg', nth_error calls k = Some c -> c_subscribed c = true -> finished c = false -> reps = (c_sid c, o) :: reps' -> Remove reg (c_sid c) = Some reg' ->
  vinv (upd k (settle_call o) calls) reg' reqs tasks runs reps'.
Proof.
  intros k c o reps' reg' E Sb Fn Er Rm. set (f := settle_call o). assert (Sm : same c (f c)) by (repeat split).
  assert (Hin : In (c_sid c, o) reps) by (rewrite Er; left; reflexivity). destruct (i_rep _ _ _ _ _ _ V _ Hin) as (k' & c' & E' & E1 & E2 & E3). cbn [fst snd] in *.
  destruct (call_unique _ _ _ _ _ _ V _ _ _ _ E E' E1) as [<- <-]. clear E' E1.
  assert (Pc : c_proc c = mkProc None None [(false, [])]).
  { destruct (i_proc _ _ _ _ _ _ V _ _ E) as [[P _]|[[_ P]|(x & _ & P & _)]]; [congruence|exact P|]. unfold finished, results in Fn. rewrite P in Fn. discriminate Fn. }
  assert (Pf : c_proc (f c) = mkProc None None [(true, [o])]) by (unfold f, settle_call, on_proc; cbn [c_proc]; rewrite Pc; destruct o; reflexivity).
  assert (Ff : finished (f c) = true) by (unfold finished, results; rewrite Pf; reflexivity).
  assert (Fs : c_subscribed (f c) = true) by exact Sb.
  assert (Fi : c_sid (f c) = c_sid c) by reflexivity.
  constructor.
  - unfold len. rewrite upd_len. exact (i_len _ _ _ _ _ _ V).
  - intros j d Ej. destruct (nth_upd _ _ f E _ _ Ej) as [[-> ->]|[_ Ej']]; [exact (i_sid _ _ _ _ _ _ V _ _ E)|exact (i_sid _ _ _ _ _ _ V _ _ Ej')].
  - intros j d Ej. destruct (nth_upd _ _ f E _ _ Ej) as [[-> ->]|[Nj Ej']].
    + rewrite Ff, Fs, Fi. assert (Q := i_count _ _ _ _ _ _ V _ _ E). rewrite Er, cnt_cons, Sb, Fn in Q. cbn [fst] in Q. rewrite N.eqb_refl in Q. cbn [b2n] in *. lia.
    + assert (Q := i_count _ _ _ _ _ _ V _ _ Ej'). rewrite Er, cnt_cons in Q. cbn [fst] in Q. rewrite (other_sid _ _ E _ _ Nj Ej') in Q. cbn [b2n] in Q. lia.
  - intros j d Ej. destruct (nth_upd _ _ f E _ _ Ej) as [[-> ->]|[Nj Ej']]; [exact (i_once _ _ _ _ _ _ V _ _ E)|exact (i_once _ _ _ _ _ _ V _ _ Ej')].
  - intros q Hq. destruct (i_req _ _ _ _ _ _ V _ Hq) as (j & d & Ej & ->). destruct (nth_upd_same _ _ f E Sm _ _ Ej) as (d' & Ed & S1 & S2 & S3). exists j, d'. split; [exact Ed|]. rewrite S1, S2, S3. reflexivity.
  - intros t Ht. destruct (i_task _ _ _ _ _ _ V _ Ht) as (j & d & Ej & T). destruct (nth_upd_same _ _ f E Sm _ _ Ej) as (d' & Ed & S). exists j, d'. split; [exact Ed|exact (task_for_same _ _ _ S T)].
  - intros t Ht. destruct (i_run _ _ _ _ _ _ V _ Ht) as (j & d & Ej & T). destruct (nth_upd_same _ _ f E Sm _ _ Ej) as (d' & Ed & S). exists j, d'. split; [exact Ed|exact (run_for_same _ _ _ S T)].
  - intros t Ht. assert (Ht' : In t reps) by (rewrite Er; right; exact Ht). destruct (i_rep _ _ _ _ _ _ V _ Ht') as (j & d & Ej & T1 & T2 & T3). destruct (nth_upd_same _ _ f E Sm _ _ Ej) as (d' & Ed & S). exists j, d'. split; [exact Ed|]. split; [destruct S as (-> & _); exact T1|]. split; [exact (outcome_same _ _ _ _ S T2)|exact T3].
  - intros j d Ej. destruct (nth_upd _ _ f E _ _ Ej) as [[-> ->]|[_ Ej']]; [|exact (i_proc _ _ _ _ _ _ V _ _ Ej')]. right; right. exists o. split; [exact Fs|]. split; [exact Pf|exact (outcome_same _ _ _ _ Sm E2)].
  - destruct (i_reg _ _ _ _ _ _ V) as (ops & R1 & R2 & R3). exists (ops ++ [ORemove (c_sid c)]). split; [|split].
    + clear - R1 Rm. revert R1. generalize (@empty_lookup nat). induction ops as [|x ops IH]; intros l R1; cbn [app lrun] in *; [injection R1 as ->; rewrite Rm; reflexivity|]. destruct x as [i s|i]; [destruct (Add l i s); [|discriminate R1]|destruct (Remove l i); [|discriminate R1]]; exact (IH _ R1).
    + intros id Hid. rewrite chain_after_snoc in Hid. cbn [chain_op] in Hid. apply remove_ids in Hid. destruct (R2 id Hid) as (j & d & Ej & D1 & D2). exists j. destruct (Nat.eq_dec j k) as [->|Nj].
      * exists (f c). rewrite upd_nth, Nat.eqb_refl, E. assert (d = c) by congruence. subst d. repeat split; assumption.
      * exists d. rewrite upd_nth. destruct (Nat.eqb_spec j k); [contradiction|]. auto.
    + intros j d Ej Sd Fd. rewrite chain_after_snoc. cbn [chain_op]. destruct (nth_upd _ _ f E _ _ Ej) as [[-> ->]|[Nj Ej']]; [congruence|].
      rewrite remove_get; [exact (R3 _ _ Ej' Sd Fd)|]. apply N.eqb_neq. exact (other_sid _ _ E _ _ Nj Ej').
Qed.
End Steps.

Lemma vinv_init : vinv [] empty_lookup [] [] [] [].
Proof.
  constructor; try (intros; match goal with E : nth_error [] ?k = _ |- _ => destruct k; discriminate E | E : In _ [] |- _ => destruct E end); [discriminate|].
  exists []. split; [reflexivity|]. split; [intros id []|]. intros [|k] c E; discriminate E.
Qed.
End Inv.
