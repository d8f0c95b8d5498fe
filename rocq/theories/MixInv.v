(** One direction of request/response between two peers, whatever they are written in: the calls of one side, what is on its way for each of them,
    and the runs of the other side. *)
From Coq Require Import List NArith ZArith Bool Lia.
From Coq Require Import ZifyBool ZifyNat ZifyN.
From Verif Require Import Base BaseLemmas InvokeModel MonoModel ProxyModel DispatchModel CallModel CallInv.
Import ListNotations.
Open Scope N_scope.

Inductive astate := Idle | Waiting | Done (o : pay + bytes).
Record acall := mkA { a_sid : N; a_data : bytes; a_md : bytes; a_st : astate }.
Inductive atask (H : Type) := TSend (sid : N) (msg : bytes) | TRun (h : H) (sid : N) (data md : bytes).
Arguments TSend {H} sid msg.
Arguments TRun {H} h sid data md.

Section Dir.
Context {H : Type}.
Context (pick : bytes -> option H).                   (* the handler that metadata names *)
Context (refuse : bytes -> bytes).                    (* the answer if there is none *)
Context (given : bytes -> bytes).                     (* the metadata a handler is given *)
Context (shown : pay + bytes -> pay + bytes).         (* what the caller is told of an answer *)
Context (idk : nat -> N).
Context (inj : forall i j, N.of_nat (S i) <= 2^30 -> N.of_nat (S j) <= 2^30 -> idk i = idk j -> i = j).
Context (ok : bytes -> bytes -> Prop) (okout : pay + bytes -> Prop).
Context (refuse_ok : forall data md, ok data md -> okout (inr (refuse md))).
Notation run := (run H).
Notation atask := (atask H).

Definition t_sid (t : atask) : N := match t with TSend sid _ => sid | TRun _ sid _ _ => sid end.
Definition started (s : astate) : bool := match s with Idle => false | _ => true end.
Definition done (s : astate) : bool := match s with Done _ => true | _ => false end.
Definition task_of (c : acall) : atask :=
  match pick (a_md c) with Some h => TRun h (a_sid c) (a_data c) (given (a_md c)) | None => TSend (a_sid c) (refuse (a_md c)) end.
Definition ran_for (c : acall) (r : run) : Prop := r_sid r = a_sid c /\ pick (a_md c) = Some (r_handler r) /\ r_data r = a_data c /\ r_md r = given (a_md c).
Definition came_of (runs : list run) (c : acall) (o : pay + bytes) : Prop :=
  (exists r, In r runs /\ ran_for c r /\ r_out r = Some o) \/ (pick (a_md c) = None /\ o = inr (refuse (a_md c))).

Record dinv (calls : list acall) (reqs : list req) (tasks : list atask) (runs : list run) (reps : list rep) : Prop := {
  d_len : len calls <= 2^30;
  d_sid : forall k c, nth_error calls k = Some c -> a_sid c = idk k /\ ok (a_data c) (a_md c);
  d_count : forall k c, nth_error calls k = Some c ->
    (cnt req_sid (a_sid c) reqs + cnt t_sid (a_sid c) tasks + cnt r_sid (a_sid c) (open_runs runs) + cnt fst (a_sid c) reps + b2n (done (a_st c)) = b2n (started (a_st c)))%nat;
  d_once : forall k c, nth_error calls k = Some c ->
    (cnt req_sid (a_sid c) reqs + cnt t_sid (a_sid c) tasks + cnt r_sid (a_sid c) runs <= b2n (started (a_st c)))%nat;
  d_req : forall q, In q reqs -> exists k c, nth_error calls k = Some c /\ q = (a_sid c, a_data c, a_md c);
  d_task : forall t, In t tasks -> exists k c, nth_error calls k = Some c /\ t = task_of c;
  d_run : forall r, In r runs -> exists k c, nth_error calls k = Some c /\ ran_for c r;
  d_rep : forall q, In q reps -> exists k c, nth_error calls k = Some c /\ fst q = a_sid c /\ came_of runs c (snd q) /\ okout (snd q);
  d_done : forall k c o, nth_error calls k = Some c -> a_st c = Done o -> exists o', came_of runs c o' /\ o = shown o' }.

(** Changing the state of one call. *)
Definition to_state (s : astate) (c : acall) : acall := mkA (a_sid c) (a_data c) (a_md c) s.
Definition updl {A} (k : nat) (f : A -> A) (l : list A) : list A :=
  match nth_error l k with Some c => firstn k l ++ f c :: skipn (S k) l | None => l end.
Lemma updl_nth : forall A k (f : A -> A) l j, nth_error (updl k f l) j = if Nat.eqb j k then option_map f (nth_error l k) else nth_error l j.
Proof using. clear.
  intros A k f l. unfold updl. revert l. induction k as [|k IH]; intros [|x l] j; try (destruct j; reflexivity).
  - cbn [nth_error]. destruct (Nat.eqb_spec j (S k)) as [->|]; [cbn; reflexivity|reflexivity].
  - cbn [nth_error firstn skipn]. specialize (IH l). destruct (nth_error l k) eqn:E.
    + destruct j as [|j]; [reflexivity|]. cbn [app nth_error Nat.eqb]. exact (IH j).
    + destruct (Nat.eqb_spec j (S k)) as [->|]; [cbn [nth_error option_map]; exact E|reflexivity].
Qed.
Lemma updl_len : forall A k (f : A -> A) l, length (updl k f l) = length l.
Proof using. clear.
  intros A k f l. unfold updl. destruct (nth_error l k) eqn:E; [|reflexivity].
  assert (L : (k < length l)%nat) by (apply nth_error_Some; congruence). rewrite app_length. cbn [length]. rewrite firstn_length, skipn_length. lia.
Qed.
Lemma updl_map : forall A B (g : A -> B) k f f' l, (forall x, nth_error l k = Some x -> g (f x) = f' (g x)) -> map g (updl k f l) = updl k f' (map g l).
Proof using. clear.
  intros A B g k f f' l E. unfold updl. rewrite nth_error_map. destruct (nth_error l k) as [x|] eqn:N0; cbn [option_map]; [|reflexivity].
  rewrite map_app, firstn_map. cbn [map]. rewrite (E x eq_refl), skipn_map. reflexivity.
Qed.

Lemma nth_len' : forall A (l : list A) k c, nth_error l k = Some c -> (k < length l)%nat.
Proof using. clear. intros A l k c E. apply nth_error_Some. congruence. Qed.
Lemma nth_snoc' : forall A (l : list A) c0 k c, nth_error (l ++ [c0]) k = Some c -> (nth_error l k = Some c /\ (k < length l)%nat) \/ (k = length l /\ c = c0).
Proof using. clear.
  intros A l c0 k c E. destruct (Nat.lt_ge_cases k (length l)) as [L|L].
  - rewrite nth_error_app1 in E by exact L. auto.
  - rewrite nth_error_app2 in E by exact L. right. destruct (k - length l)%nat as [|d] eqn:D; [|destruct d; discriminate E]. injection E as <-. split; [lia|reflexivity].
Qed.
Lemma nth_old' : forall A (l : list A) c0 k c, nth_error l k = Some c -> nth_error (l ++ [c0]) k = Some c.
Proof using. clear. intros A l c0 k c E. rewrite nth_error_app1; [exact E|exact (nth_len' _ _ _ _ E)]. Qed.

Lemma task_of_sid : forall c, t_sid (task_of c) = a_sid c.
Proof. intro c. unfold task_of. destruct (pick (a_md c)); reflexivity. Qed.
Lemma came_more : forall runs runs' c o, (forall r, In r runs -> r_out r <> None -> In r runs') -> came_of runs c o -> came_of runs' c o.
Proof. intros runs runs' c o Im [(r & A & B & C)|Z]; [left; exists r; split; [apply Im; [exact A|congruence]|auto]|right; exact Z]. Qed.
Lemma open_app' : forall a b : list run, open_runs (a ++ b) = open_runs a ++ open_runs b.
Proof. intros. apply filter_app. Qed.

Section Steps.
Context (calls : list acall) (reqs : list req) (tasks : list atask) (runs : list run) (reps : list rep).
Context (V : dinv calls reqs tasks runs reps).

Lemma a_unique : forall i j c d, nth_error calls i = Some c -> nth_error calls j = Some d -> a_sid c = a_sid d -> i = j /\ c = d.
Proof.
  intros i j c d Ei Ej Q. destruct (d_sid _ _ _ _ _ V _ _ Ei) as [Si _]. destruct (d_sid _ _ _ _ _ V _ _ Ej) as [Sj _]. rewrite Si, Sj in Q.
  assert (L := d_len _ _ _ _ _ V). unfold len in L. assert (Li := nth_len' _ _ _ _ Ei). assert (Lj := nth_len' _ _ _ _ Ej).
  apply inj in Q; [|lia|lia]. subst j. split; [reflexivity|congruence].
Qed.

Lemma fresh_id : forall k c, len calls < 2^30 -> nth_error calls k = Some c -> a_sid c <> idk (length calls).
Proof. intros k c L E Q. destruct (d_sid _ _ _ _ _ V _ _ E) as [Si _]. rewrite Si in Q. assert (Lk := nth_len' _ _ _ _ E). unfold len in L. apply inj in Q; lia. Qed.

Lemma s_call : forall d m, ok d m -> len calls < 2^30 -> dinv (calls ++ [mkA (idk (length calls)) d m Idle]) reqs tasks runs reps.
Proof.
  intros d m Sd L. set (c0 := mkA _ d m Idle). assert (Fr : forall k c, nth_error calls k = Some c -> a_sid c <> a_sid c0) by (intros k c E; exact (fresh_id k c L E)).
  assert (Z : cnt req_sid (a_sid c0) reqs = 0%nat /\ cnt t_sid (a_sid c0) tasks = 0%nat /\ cnt r_sid (a_sid c0) runs = 0%nat /\ cnt r_sid (a_sid c0) (open_runs runs) = 0%nat /\ cnt fst (a_sid c0) reps = 0%nat).
  { assert (Zr : forall r, In r runs -> r_sid r <> a_sid c0) by (intros r Hr; destruct (d_run _ _ _ _ _ V _ Hr) as (k & c & E & (E1 & _)); rewrite E1; exact (Fr _ _ E)).
    split; [|split; [|split; [|split]]]; apply cnt_none.
    - intros q Hq. destruct (d_req _ _ _ _ _ V _ Hq) as (k & c & E & ->). exact (Fr _ _ E).
    - intros t Ht. destruct (d_task _ _ _ _ _ V _ Ht) as (k & c & E & ->). rewrite task_of_sid. exact (Fr _ _ E).
    - exact Zr.
    - intros r Hr. apply Zr. unfold open_runs in Hr. apply filter_In in Hr. apply Hr.
    - intros q Hq. destruct (d_rep _ _ _ _ _ V _ Hq) as (k & c & E & -> & _). exact (Fr _ _ E). }
  destruct Z as (Z1 & Z2 & Z3 & Z4 & Z5). constructor.
  - unfold len in *. rewrite app_length. cbn [length]. lia.
  - intros k c E. destruct (nth_snoc' _ _ _ _ _ E) as [[E' _]|[-> ->]]; [exact (d_sid _ _ _ _ _ V _ _ E')|]. split; [reflexivity|exact Sd].
  - intros k c E. destruct (nth_snoc' _ _ _ _ _ E) as [[E' _]|[-> ->]]; [exact (d_count _ _ _ _ _ V _ _ E')|]. rewrite Z1, Z2, Z4, Z5. reflexivity.
  - intros k c E. destruct (nth_snoc' _ _ _ _ _ E) as [[E' _]|[-> ->]]; [exact (d_once _ _ _ _ _ V _ _ E')|]. rewrite Z1, Z2, Z3. apply Nat.le_0_l.
  - intros q Hq. destruct (d_req _ _ _ _ _ V _ Hq) as (k & c & E & E'). exists k, c. split; [exact (nth_old' _ _ _ _ _ E)|exact E'].
  - intros q Hq. destruct (d_task _ _ _ _ _ V _ Hq) as (k & c & E & E'). exists k, c. split; [exact (nth_old' _ _ _ _ _ E)|exact E'].
  - intros q Hq. destruct (d_run _ _ _ _ _ V _ Hq) as (k & c & E & E'). exists k, c. split; [exact (nth_old' _ _ _ _ _ E)|exact E'].
  - intros q Hq. destruct (d_rep _ _ _ _ _ V _ Hq) as (k & c & E & E'). exists k, c. split; [exact (nth_old' _ _ _ _ _ E)|exact E'].
  - intros k c o E Dn. destruct (nth_snoc' _ _ _ _ _ E) as [[E' _]|[-> ->]]; [exact (d_done _ _ _ _ _ V _ _ _ E' Dn)|]. discriminate Dn.
Qed.

Section Change.
Context (k0 : nat) (c0 : acall) (s : astate).
Context (E0 : nth_error calls k0 = Some c0).
Lemma a_upd : forall k c, nth_error (updl k0 (to_state s) calls) k = Some c -> (k = k0 /\ c = to_state s c0) \/ (k <> k0 /\ nth_error calls k = Some c).
Proof. intros k c E. rewrite updl_nth, E0 in E. destruct (Nat.eqb_spec k k0) as [->|N0]; [left; cbn in E; split; [reflexivity|congruence]|right; auto]. Qed.
Lemma a_upd_same : forall k c, nth_error calls k = Some c -> exists s', nth_error (updl k0 (to_state s) calls) k = Some (to_state s' c).
Proof.
  intros k c E. rewrite updl_nth. destruct (Nat.eqb_spec k k0) as [->|N0].
  - exists s. rewrite E0. assert (Q : c = c0) by congruence. rewrite Q. reflexivity.
  - exists (a_st c). destruct c; exact E.
Qed.
Lemma a_other : forall k c, k <> k0 -> nth_error calls k = Some c -> (a_sid c0 =? a_sid c) = false.
Proof. intros k c N0 E. apply N.eqb_neq. intro Q. apply N0. symmetry. exact (proj1 (a_unique _ _ _ _ E0 E Q)). Qed.
End Change.

Lemma s_start : forall k c, nth_error calls k = Some c -> a_st c = Idle ->
  dinv (updl k (to_state Waiting) calls) (reqs ++ [(a_sid c, a_data c, a_md c)]) tasks runs reps.
Proof.
  intros k c E Sb. assert (K := d_count _ _ _ _ _ V _ _ E). assert (O := d_once _ _ _ _ _ V _ _ E). rewrite Sb in K, O. cbn [b2n started done] in K, O.
  constructor.
  - unfold len. rewrite updl_len. exact (d_len _ _ _ _ _ V).
  - intros j d Ej. destruct (a_upd _ _ Waiting E _ _ Ej) as [[-> ->]|[_ Ej']]; [exact (d_sid _ _ _ _ _ V _ _ E)|exact (d_sid _ _ _ _ _ V _ _ Ej')].
  - intros j d Ej. rewrite cnt_app, cnt_cons, cnt_nil. change (req_sid (a_sid c, a_data c, a_md c)) with (a_sid c). destruct (a_upd _ _ Waiting E _ _ Ej) as [[-> ->]|[Nj Ej']].
    + cbn [to_state a_sid a_st started done b2n]. rewrite N.eqb_refl. cbn [b2n]. lia.
    + rewrite (a_other _ _ E _ _ Nj Ej'). assert (Q := d_count _ _ _ _ _ V _ _ Ej'). cbn [b2n]. lia.
  - intros j d Ej. rewrite cnt_app, cnt_cons, cnt_nil. change (req_sid (a_sid c, a_data c, a_md c)) with (a_sid c). destruct (a_upd _ _ Waiting E _ _ Ej) as [[-> ->]|[Nj Ej']].
    + cbn [to_state a_sid a_st started b2n]. rewrite N.eqb_refl. cbn [b2n]. lia.
    + rewrite (a_other _ _ E _ _ Nj Ej'). assert (Q := d_once _ _ _ _ _ V _ _ Ej'). cbn [b2n]. lia.
  - intros q Hq. assert (Q : exists j d, nth_error calls j = Some d /\ q = (a_sid d, a_data d, a_md d)).
    { apply in_app_or in Hq. destruct Hq as [Hq|[<-|[]]]; [exact (d_req _ _ _ _ _ V _ Hq)|exists k, c; auto]. }
    destruct Q as (j & d & Ej & ->). destruct (a_upd_same _ _ Waiting E _ _ Ej) as (s' & Ed). exists j, (to_state s' d). split; [exact Ed|reflexivity].
  - intros t Ht. destruct (d_task _ _ _ _ _ V _ Ht) as (j & d & Ej & ->). destruct (a_upd_same _ _ Waiting E _ _ Ej) as (s' & Ed). exists j, (to_state s' d). split; [exact Ed|reflexivity].
  - intros t Ht. destruct (d_run _ _ _ _ _ V _ Ht) as (j & d & Ej & T). destruct (a_upd_same _ _ Waiting E _ _ Ej) as (s' & Ed). exists j, (to_state s' d). split; [exact Ed|exact T].
  - intros t Ht. destruct (d_rep _ _ _ _ _ V _ Ht) as (j & d & Ej & T). destruct (a_upd_same _ _ Waiting E _ _ Ej) as (s' & Ed). exists j, (to_state s' d). split; [exact Ed|exact T].
  - intros j d o Ej Dn. destruct (a_upd _ _ Waiting E _ _ Ej) as [[-> ->]|[_ Ej']]; [discriminate Dn|exact (d_done _ _ _ _ _ V _ _ _ Ej' Dn)].
Qed.

Lemma s_receive : forall c k reqs', nth_error calls k = Some c -> reqs = (a_sid c, a_data c, a_md c) :: reqs' -> dinv calls reqs' (tasks ++ [task_of c]) runs reps.
Proof.
  intros c k reqs' E Er. constructor; try apply V.
  - intros j d Ej. rewrite cnt_app, cnt_cons, cnt_nil, task_of_sid. assert (Q := d_count _ _ _ _ _ V _ _ Ej). rewrite Er, cnt_cons in Q. change (req_sid (a_sid c, a_data c, a_md c)) with (a_sid c) in Q. lia.
  - intros j d Ej. rewrite cnt_app, cnt_cons, cnt_nil, task_of_sid. assert (Q := d_once _ _ _ _ _ V _ _ Ej). rewrite Er, cnt_cons in Q. change (req_sid (a_sid c, a_data c, a_md c)) with (a_sid c) in Q. lia.
  - intros q Hq. apply (d_req _ _ _ _ _ V). rewrite Er. right. exact Hq.
  - intros t Hs. apply in_app_or in Hs. destruct Hs as [Hs|[<-|[]]]; [exact (d_task _ _ _ _ _ V _ Hs)|exists k, c; auto].
Qed.

Lemma s_send : forall l q sid m, tasks = l ++ TSend sid m :: q -> dinv calls reqs (l ++ q) runs (reps ++ [(sid, inr m)]).
Proof.
  intros l q sid m Et. assert (Hin : In (TSend sid m) tasks) by (rewrite Et; apply in_or_app; right; left; reflexivity).
  assert (Ot : forall s, In s (l ++ q) -> In s tasks) by (intros s Hs; rewrite Et; apply in_app_or in Hs; apply in_or_app; destruct Hs; [left|right; right]; assumption).
  destruct (d_task _ _ _ _ _ V _ Hin) as (k & c & E & T). unfold task_of in T. destruct (pick (a_md c)) eqn:Pk; [discriminate T|]. injection T as -> ->.
  constructor; try apply V.
  - intros j d Ej. assert (Q := d_count _ _ _ _ _ V _ _ Ej). rewrite Et in Q. rewrite cnt_app, cnt_cons in Q. cbn [t_sid] in Q. rewrite !cnt_app, cnt_cons, cnt_nil. cbn [fst]. lia.
  - intros j d Ej. assert (Q := d_once _ _ _ _ _ V _ _ Ej). rewrite Et in Q. rewrite cnt_app, cnt_cons in Q. cbn [t_sid] in Q. rewrite !cnt_app. lia.
  - intros s Hs. exact (d_task _ _ _ _ _ V _ (Ot s Hs)).
  - intros s Hs. apply in_app_or in Hs. destruct Hs as [Hs|[<-|[]]]; [exact (d_rep _ _ _ _ _ V _ Hs)|]. exists k, c. split; [exact E|]. split; [reflexivity|]. split; [right; auto|].
    cbn [snd]. apply (refuse_ok (a_data c)). apply (d_sid _ _ _ _ _ V _ _ E).
Qed.

Lemma s_run : forall l q h sid d m, tasks = l ++ TRun h sid d m :: q -> dinv calls reqs (l ++ q) (runs ++ [mkRun h sid d m None]) reps.
Proof.
  intros l q h sid d m Et. assert (Hin : In (TRun h sid d m) tasks) by (rewrite Et; apply in_or_app; right; left; reflexivity).
  assert (Ot : forall s, In s (l ++ q) -> In s tasks) by (intros s Hs; rewrite Et; apply in_app_or in Hs; apply in_or_app; destruct Hs; [left|right; right]; assumption).
  destruct (d_task _ _ _ _ _ V _ Hin) as (k & c & E & T). unfold task_of in T. destruct (pick (a_md c)) as [h'|] eqn:Pk; [|discriminate T]. injection T as -> -> -> ->.
  assert (Im : forall r, In r runs -> r_out r <> None -> In r (runs ++ [mkRun h' (a_sid c) (a_data c) (given (a_md c)) None])) by (intros; apply in_or_app; left; assumption).
  constructor; try apply V.
  - intros j d Ej. assert (Q := d_count _ _ _ _ _ V _ _ Ej). rewrite Et in Q. rewrite cnt_app, cnt_cons in Q. rewrite open_app', !cnt_app. cbn [open_runs filter r_out t_sid] in *. rewrite cnt_cons, cnt_nil. cbn [r_sid]. unfold open_runs in *. lia.
  - intros j d Ej. assert (Q := d_once _ _ _ _ _ V _ _ Ej). rewrite Et in Q. rewrite cnt_app, cnt_cons in Q. rewrite !cnt_app, cnt_cons, cnt_nil. cbn [r_sid t_sid] in *. lia.
  - intros s Hs. exact (d_task _ _ _ _ _ V _ (Ot s Hs)).
  - intros s Hs. apply in_app_or in Hs. destruct Hs as [Hs|[<-|[]]]; [exact (d_run _ _ _ _ _ V _ Hs)|]. exists k, c. split; [exact E|]. repeat split. exact Pk.
  - intros s Hs. destruct (d_rep _ _ _ _ _ V _ Hs) as (j & d & Ej & D1 & D2 & D3). exists j, d. split; [exact Ej|]. split; [exact D1|]. split; [exact (came_more _ _ _ _ Im D2)|exact D3].
  - intros j d o Ej Dn. destruct (d_done _ _ _ _ _ V _ _ _ Ej Dn) as (o' & D1 & D2). exists o'. split; [exact (came_more _ _ _ _ Im D1)|exact D2].
Qed.

Lemma s_conclude : forall l q h sid d m o, runs = l ++ mkRun h sid d m None :: q -> okout o -> dinv calls reqs tasks (l ++ mkRun h sid d m (Some o) :: q) (reps ++ [(sid, o)]).
Proof.
  intros l q h sid d m o Er So. assert (Hin : In (mkRun h sid d m None) runs) by (rewrite Er; apply in_or_app; right; left; reflexivity).
  destruct (d_run _ _ _ _ _ V _ Hin) as (k & c & E & Rf). assert (Rs : sid = a_sid c) by apply Rf. subst sid.
  assert (Rf' : ran_for c (mkRun h (a_sid c) d m (Some o))) by exact Rf.
  assert (Im : forall r, In r runs -> r_out r <> None -> In r (l ++ mkRun h (a_sid c) d m (Some o) :: q)).
  { intros r Hr Nr. rewrite Er in Hr. apply in_app_or in Hr. apply in_or_app. destruct Hr as [Hr|[<-|Hr]]; [left; exact Hr|exfalso; apply Nr; reflexivity|right; right; exact Hr]. }
  constructor; try apply V.
  - intros j e Ej. assert (Q := d_count _ _ _ _ _ V _ _ Ej). rewrite Er in Q. rewrite open_app', cnt_app in Q. cbn [open_runs filter r_out] in Q. rewrite cnt_cons in Q. rewrite open_app', !cnt_app. cbn [open_runs filter r_out]. rewrite cnt_cons, cnt_nil. cbn [fst r_sid] in *. unfold open_runs in *. lia.
  - intros j e Ej. assert (Q := d_once _ _ _ _ _ V _ _ Ej). rewrite Er in Q. rewrite cnt_app, cnt_cons in *. cbn [r_sid] in *. lia.
  - intros r Hr. apply in_app_or in Hr. destruct Hr as [Hr|[<-|Hr]]; [apply (d_run _ _ _ _ _ V); rewrite Er; apply in_or_app; left; exact Hr|exists k, c; auto|apply (d_run _ _ _ _ _ V); rewrite Er; apply in_or_app; right; right; exact Hr].
  - intros s Hs. apply in_app_or in Hs. destruct Hs as [Hs|[<-|[]]].
    + destruct (d_rep _ _ _ _ _ V _ Hs) as (j & e & Ej & D1 & D2 & D3). exists j, e. split; [exact Ej|]. split; [exact D1|]. split; [exact (came_more _ _ _ _ Im D2)|exact D3].
    + exists k, c. split; [exact E|]. split; [reflexivity|]. split; [|exact So]. left. exists (mkRun h (a_sid c) d m (Some o)). split; [apply in_or_app; right; left; reflexivity|]. split; [exact Rf'|reflexivity].
  - intros j e x Ej Dn. destruct (d_done _ _ _ _ _ V _ _ _ Ej Dn) as (o' & D1 & D2). exists o'. split; [exact (came_more _ _ _ _ Im D1)|exact D2].
Qed.

(** An answer finds the call it is for. *)
Lemma s_target : forall sid o reps', reps = (sid, o) :: reps' -> exists k c, nth_error calls k = Some c /\ sid = a_sid c /\ a_st c = Waiting /\ okout o /\ came_of runs c o.
Proof.
  intros sid o reps' Er. assert (Hin : In (sid, o) reps) by (rewrite Er; left; reflexivity). destruct (d_rep _ _ _ _ _ V _ Hin) as (k & c & E & E1 & E2 & E3). cbn [fst snd] in *.
  assert (Q := d_count _ _ _ _ _ V _ _ E). rewrite Er, cnt_cons in Q. cbn [fst] in Q. rewrite E1, N.eqb_refl in Q. cbn [b2n] in Q.
  exists k, c. split; [exact E|]. split; [exact E1|]. split; [|split; [exact E3|exact E2]]. destruct (a_st c); cbn [b2n started done] in Q; [lia|reflexivity|lia].
Qed.

Lemma s_reply : forall k c o reps', nth_error calls k = Some c -> reps = (a_sid c, o) :: reps' -> dinv (updl k (to_state (Done (shown o))) calls) reqs tasks runs reps'.
Proof.
  intros k c o reps' E Er. set (s := Done (shown o)).
  destruct (s_target _ _ _ Er) as (k' & c' & E' & E1 & E2 & E3 & E4). destruct (a_unique _ _ _ _ E E' E1) as [<- <-]. clear E' E1.
  constructor.
  - unfold len. rewrite updl_len. exact (d_len _ _ _ _ _ V).
  - intros j d Ej. destruct (a_upd _ _ s E _ _ Ej) as [[-> ->]|[_ Ej']]; [exact (d_sid _ _ _ _ _ V _ _ E)|exact (d_sid _ _ _ _ _ V _ _ Ej')].
  - intros j d Ej. destruct (a_upd _ _ s E _ _ Ej) as [[-> ->]|[Nj Ej']].
    + assert (Q := d_count _ _ _ _ _ V _ _ E). rewrite Er, cnt_cons, E2 in Q. cbn [fst] in Q. rewrite N.eqb_refl in Q. cbn [b2n to_state a_sid a_st s started done] in *. lia.
    + assert (Q := d_count _ _ _ _ _ V _ _ Ej'). rewrite Er, cnt_cons in Q. cbn [fst] in Q. rewrite (a_other _ _ E _ _ Nj Ej') in Q. cbn [b2n] in Q. lia.
  - intros j d Ej. destruct (a_upd _ _ s E _ _ Ej) as [[-> ->]|[Nj Ej']]; [|exact (d_once _ _ _ _ _ V _ _ Ej')]. assert (Q := d_once _ _ _ _ _ V _ _ E). rewrite E2 in Q. exact Q.
  - intros q Hq. destruct (d_req _ _ _ _ _ V _ Hq) as (j & d & Ej & ->). destruct (a_upd_same _ _ s E _ _ Ej) as (s' & Ed). exists j, (to_state s' d). split; [exact Ed|reflexivity].
  - intros t Ht. destruct (d_task _ _ _ _ _ V _ Ht) as (j & d & Ej & ->). destruct (a_upd_same _ _ s E _ _ Ej) as (s' & Ed). exists j, (to_state s' d). split; [exact Ed|reflexivity].
  - intros t Ht. destruct (d_run _ _ _ _ _ V _ Ht) as (j & d & Ej & T). destruct (a_upd_same _ _ s E _ _ Ej) as (s' & Ed). exists j, (to_state s' d). split; [exact Ed|exact T].
  - intros t Ht. assert (Ht' : In t reps) by (rewrite Er; right; exact Ht). destruct (d_rep _ _ _ _ _ V _ Ht') as (j & d & Ej & T). destruct (a_upd_same _ _ s E _ _ Ej) as (s' & Ed). exists j, (to_state s' d). split; [exact Ed|exact T].
  - intros j d x Ej Dn. destruct (a_upd _ _ s E _ _ Ej) as [[-> ->]|[_ Ej']]; [|exact (d_done _ _ _ _ _ V _ _ _ Ej' Dn)]. exists o. split; [exact E4|]. unfold s in Dn. cbn [to_state a_st] in Dn. congruence.
Qed.
End Steps.

Lemma dinv_init : dinv [] [] [] [] [].
Proof. constructor; try (intros; match goal with E : nth_error [] ?k = _ |- _ => destruct k; discriminate E | E : In _ [] |- _ => destruct E end). discriminate. Qed.
End Dir.
