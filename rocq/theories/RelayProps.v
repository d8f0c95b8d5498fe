(** C65: request/response calls from module to module through the mesh. *)
From Coq Require Import List NArith ZArith Bool Lia.
From Coq Require Import ZifyBool ZifyNat ZifyN.
From Verif Require Import Base BaseLemmas FramesModel FramesSpec OperationsModel InvokeModel InvokeSpec LookupModel StreamIdModel MonoModel ProxyModel DispatchModel DispatchSpec.
From Verif Require Import MeshModel MeshSpec MeshProofs CallModel CallSpec CallInv CallProofs CallProps RelayModel RelaySpec RelayProofs.
Import ListNotations.
Open Scope N_scope.

(** ** What the caller sees *)

(** At every moment of every execution, whatever else is under way in whatever module: a guest's call has seen nothing, or exactly one thing, which is what
    the guest it is linked to answered, or the error that says that there is none. *)
Theorem C65_outcome : forall G (m : mesh) (exported : nat -> ikind -> list (option G)) n, mesh_ok m exported n -> forall r, relay_reach m exported n r ->
  forall i st c, nth_error (y_nets r) i = Some st -> In c (p_calls (n_peer st Client)) -> results c = [] \/ exists o, results c = [o] /\ relayed m exported r i c o.
Proof.
  intros G m exported n Ok r R i st c N0 Hc. destruct (In_nth_error _ _ Hc) as [k Ek]. destruct (reach_yinv m exported n Ok r R) as (B & _ & _).
  destruct (C41_outcome _ _ _ (tables_few m exported n Ok i) st (yb_reach _ _ _ _ B _ _ N0) Client _ _ Ek) as [Q|(o & Q & _)]; [left; exact Q|right]. exists o. split; [exact Q|]. exact (relayed_all m exported n Ok r i st k c o R N0 Ek Q).
Qed.
Print Assumptions C65_outcome.

(** A call is passed on at most once, to a guest of its own, with the metadata of the caller but for the index. *)
Theorem C65_once : forall G (m : mesh) (exported : nat -> ikind -> list (option G)) n, mesh_ok m exported n -> forall r, relay_reach m exported n r ->
  (forall l l', In l (y_links r) -> In l' (y_links r) -> (l_from l = l_from l' /\ l_run l = l_run l') \/ (l_to l = l_to l' /\ l_call l = l_call l') -> l = l') /\
  (forall l, In l (y_links r) -> exists st k c d sd c', nth_error (y_nets r) (l_from l) = Some st /\ nth_error (p_calls (n_peer st Client)) k = Some c /\ c_subscribed c = true /\ leads_to m (l_from l) (c_md c) d /\
     (exists x, nth_error (p_runs (n_peer st Server)) (l_run l) = Some x /\ r_sid x = c_sid c) /\
     l_to l = d_inst d /\ nth_error (y_nets r) (l_to l) = Some sd /\ nth_error (p_calls (n_peer sd Server)) (l_call l) = Some c' /\ c_subscribed c' = true /\ c_data c' = c_data c /\ c_md c' = be 4 (d_index d) ++ skipn 4 (c_md c)) /\
  (forall i st, nth_error (y_nets r) i = Some st -> net_reach relay_site (relay_tbl m exported i) st).
Proof.
  intros G m exported n Ok r R. destruct (reach_yinv m exported n Ok r R) as (B & _ & U). split; [|split].
  - intros l l' Hl Hl' [[A1 A2]|[A1 A2]]; [exact (U l l' Hl Hl' A1 A2)|exact (reach_distinct m exported n Ok r R l l' Hl Hl' A1 A2)].
  - exact (link_caller m exported n Ok r R).
  - exact (yb_reach _ _ _ _ B).
Qed.
Print Assumptions C65_once.

(** When nothing is under way every subscribed call of a guest has its one outcome, and the others have none. *)
Theorem C65_at_rest : forall G (m : mesh) (exported : nat -> ikind -> list (option G)) n, mesh_ok m exported n -> forall r, relay_reach m exported n r -> relay_rest r ->
  forall i st c, nth_error (y_nets r) i = Some st -> In c (p_calls (n_peer st Client)) -> if c_subscribed c then exists o, results c = [o] /\ relayed m exported r i c o else results c = [].
Proof.
  intros G m exported n Ok r R Z i st c N0 Hc. destruct (reach_yinv m exported n Ok r R) as (B & _ & _). unfold relay_rest in Z. rewrite Forall_forall in Z.
  assert (Q := C41_at_rest _ _ _ (tables_few m exported n Ok i) st (yb_reach _ _ _ _ B _ _ N0) (Z st (nth_error_In _ _ N0)) Client c Hc). destruct (c_subscribed c); [|exact Q]. destruct Q as (o & Q & _). exists o. split; [exact Q|].
  destruct (In_nth_error _ _ Hc) as [k Ek]. exact (relayed_all m exported n Ok r i st k c o R N0 Ek Q).
Qed.
Print Assumptions C65_at_rest.

(** ** Nothing gets stuck *)

(** A destination can always pass a request on (while there are stream ids), without panic, and every answer can be passed back. *)
Theorem C65_no_panic : forall G (m : mesh) (exported : nat -> ikind -> list (option G)) n, mesh_ok m exported n -> forall r, relay_reach m exported n r ->
  (forall i j st ik h sid data md pa q, Forall (fun st => len (p_calls (n_peer st Server)) < 2^30) (y_nets r) -> nth_error (y_nets r) i = Some st -> nth_error (p_tasks (n_peer st Server)) j = Some (ARun ik h sid data md pa q) ->
     do_relay m exported r (RForward i j) <> None) /\
  (forall k l, nth_error (y_links r) k = Some l -> exists st x sd c, nth_error (y_nets r) (l_from l) = Some st /\ nth_error (p_runs (n_peer st Server)) (l_run l) = Some x /\
     nth_error (y_nets r) (l_to l) = Some sd /\ nth_error (p_calls (n_peer sd Server)) (l_call l) = Some c /\ (r_out x = None -> results c <> [] -> do_relay m exported r (RBack k) <> None)).
Proof.
  intros G m exported n Ok r R. assert (Y := reach_yinv m exported n Ok r R). split.
  - intros i j st ik h sid data md pa q Rm N0 T. destruct (forward_ok m exported n Ok r i j st _ _ _ _ _ _ _ Y Rm N0 T) as [r' ->]. discriminate.
  - intros k l El. destruct (back_ok m exported n Ok r k l Y El) as (st & x & sd & c & A1 & A2 & A3 & A4 & _ & Go). exists st, x, sd, c. do 4 (split; [assumption|]). intros Ox Rc. destruct (Go Ox Rc) as [r' ->]. discriminate.
Qed.
Print Assumptions C65_no_panic.

(** Each move other than the callers' brings rest nearer; unless at rest there is one. *)
Theorem C65_progress : forall G (m : mesh) (exported : nat -> ikind -> list (option G)) n, mesh_ok m exported n -> forall r, relay_reach m exported n r ->
  (forall mv r', relay_allowed r mv -> relay_inner mv = true -> do_relay m exported r mv = Some r' -> (left_over r' < left_over r)%nat) /\
  (Forall (fun st => len (p_calls (n_peer st Server)) < 2^30) (y_nets r) -> relay_rest r \/ exists mv r', relay_allowed r mv /\ relay_inner mv = true /\ do_relay m exported r mv = Some r').
Proof.
  intros G m exported n Ok r R. assert (Y := reach_yinv m exported n Ok r R). split; [intros mv r' A I0 E; exact (relay_less m exported n Ok r mv r' Y A I0 E)|]. exact (relay_goes m exported n Ok r Y).
Qed.
Print Assumptions C65_progress.

(** So, with no further calls and all guests' handlers concluding, any way of going on ends, and it can be gone on until every subscribed call is answered. *)
Inductive relay_goes_on {G} (m : mesh) (exported : nat -> ikind -> list (option G)) : nat -> relay G -> relay G -> Prop :=
| yg_stay : forall r, relay_goes_on m exported 0 r r
| yg_move : forall k r mv r' r'', relay_allowed r mv -> relay_inner mv = true -> do_relay m exported r mv = Some r' -> relay_goes_on m exported k r' r'' -> relay_goes_on m exported (S k) r r''.
Lemma inner_calls : forall H (w : side -> site) (tbl : side -> ikind -> list (option H)) st mv st' s, inner mv = true -> do_move w tbl st mv = Some st' -> length (p_calls (n_peer st' s)) = length (p_calls (n_peer st s)).
Proof.
  intros H w tbl st mv st' s I0 D. assert (M := do_moved _ _ _ _ _ D). destruct mv as [s0 d md|s0 k|s0|s0 i|s0 i o]; try discriminate I0; cbn [moved] in M; destruct M as (T & C & _); (destruct (side_cases s0 s) as [->| ->]; [|rewrite T; reflexivity]); [|rewrite C; reflexivity|rewrite C; reflexivity].
  rewrite <- (map_length key), C, map_length. reflexivity.
Qed.
Lemma put_calls : forall G (nets : list (net (destination + G))) i st st' N, nth_error nets i = Some st -> (length (p_calls (n_peer st' Server)) <= length (p_calls (n_peer st Server)) + N)%nat ->
  forall b, Forall (fun st => (length (p_calls (n_peer st Server)) <= b)%nat) nets -> Forall (fun st => (length (p_calls (n_peer st Server)) <= b + N)%nat) (put_nth nets i st').
Proof.
  intros G nets i st st' N E L b F. rewrite Forall_forall in *. intros x Hx. destruct (In_nth_error _ _ Hx) as [j Ej]. destruct (Nat.eq_dec j i) as [->|Nj].
  - rewrite (put_same _ _ _ _ _ E) in Ej. injection Ej as <-. assert (Q := F st (nth_error_In _ _ E)). cbn beta in Q. lia.
  - rewrite put_other in Ej by exact Nj. assert (Q := F x (nth_error_In _ _ Ej)). cbn beta in Q. lia.
Qed.
Lemma calls_grow : forall G (m : mesh) (exported : nat -> ikind -> list (option G)) n, mesh_ok m exported n -> forall r mv r', relay_inner mv = true -> do_relay m exported r mv = Some r' ->
  forall b, Forall (fun st => (length (p_calls (n_peer st Server)) <= b)%nat) (y_nets r) -> Forall (fun st => (length (p_calls (n_peer st Server)) <= b + 1)%nat) (y_nets r').
Proof.
  intros G m exported n Ok r mv r' I0 E b F. destruct mv as [i mv|i j|k].
  - cbn [do_relay relay_inner] in *. destruct (nth_error (y_nets r) i) as [st|] eqn:N0; [|discriminate E]. destruct (own_move st mv); [|discriminate E]. destruct (net_move_some _ _ _ _ _ _ E) as (st_ & st' & N0' & D & ->). cbn [y_nets].
    refine (put_calls _ _ i st_ st' 1 N0' _ b F). rewrite (inner_calls _ _ _ _ _ _ Server I0 D). lia.
  - destruct (forward_steps _ _ _ _ _ _ E) as (st & d & ik & sid & data & md & pa & q & md' & r1 & sd & r2 & r3 & N0 & T & Rd & M1 & N1 & M2 & M3 & ->). clear E.
    destruct (net_move_some _ _ _ _ _ _ M1) as (st_ & st1 & N0' & D1 & ->). destruct (net_move_some _ _ _ _ _ _ M2) as (sd_ & sd1 & N1' & D2 & ->). destruct (net_move_some _ _ _ _ _ _ M3) as (sd__ & sd2 & N2' & D3 & ->). cbn [y_nets] in *.
    assert (F1 := put_calls _ _ i st_ st1 0 N0' ltac:(rewrite (inner_calls _ _ _ _ (MTask Server j) _ Server eq_refl D1); lia) b F). rewrite Nat.add_0_r in F1.
    assert (Q2 := do_moved _ _ _ _ _ D2). cbn [moved] in Q2. destruct Q2 as (_ & _ & _ & _ & sid1 & C2). assert (F2 := put_calls _ _ (d_inst d) sd_ sd1 1 N1' ltac:(rewrite C2, app_length; cbn [length]; lia) b F1).
    assert (Q3 := do_moved _ _ _ _ _ D3). cbn [moved] in Q3. destruct Q3 as (_ & _ & _ & _ & _ & c1 & f & _ & C3 & _). assert (F3 := put_calls _ _ (d_inst d) sd__ sd2 0 N2' ltac:(rewrite C3, upd_len; lia) (b + 1)%nat F2). rewrite Nat.add_0_r in F3. exact F3.
  - destruct (back_steps _ _ _ _ _ E) as (l & sd & c & o & os & _ & _ & _ & _ & M). destruct (net_move_some _ _ _ _ _ _ M) as (st & st' & N0 & D & ->). cbn [y_nets].
    refine (put_calls _ _ _ st st' 1 N0 _ b F). rewrite (inner_calls _ _ _ _ (MConclude Server (l_run l) o) _ Server eq_refl D). lia.
Qed.
Theorem C65_all_answered : forall G (m : mesh) (exported : nat -> ikind -> list (option G)) n, mesh_ok m exported n -> forall r, relay_reach m exported n r ->
  (forall k r', relay_goes_on m exported k r r' -> (k <= left_over r)%nat /\ relay_reach m exported n r') /\
  (roomy r -> exists k r', relay_goes_on m exported k r r' /\ relay_rest r').
Proof.
  intros G m exported n Ok r R. split.
  - intros k r' Go. revert R. induction Go as [r|k r mv r' r'' A I0 D Go IH]; intro R; [split; [apply Nat.le_0_l|exact R]|].
    assert (L := proj1 (C65_progress G m exported n Ok r R) mv r' A I0 D). destruct (IH (y_move m exported n r mv r' R A D)) as [L' R']. split; [lia|exact R'].
  - intro Rm. assert (Rm' : exists b, Forall (fun st => (length (p_calls (n_peer st Server)) <= b)%nat) (y_nets r) /\ (y_nets r = [] \/ N.of_nat b + N.of_nat (left_over r) < 2^30)).
    { exists (N.to_nat (2^30 - 1 - N.of_nat (left_over r))). unfold roomy in Rm. rewrite Forall_forall in *. split.
      - intros st Hs. assert (Q := Rm st Hs). cbn beta in Q. unfold len in Q. lia.
      - destruct (y_nets r) as [|st l]; [left; reflexivity|right]. assert (Q := Rm st (or_introl eq_refl)). cbn beta in Q. lia. }
    destruct Rm' as (b & F & [Z|Lb]); [exists 0%nat, r; split; [constructor|unfold relay_rest; rewrite Z; constructor]|]. clear Rm.
    assert (Go : forall k r b, relay_reach m exported n r -> Forall (fun st => (length (p_calls (n_peer st Server)) <= b)%nat) (y_nets r) -> N.of_nat b + N.of_nat (left_over r) < 2^30 -> (left_over r <= k)%nat -> exists k r', relay_goes_on m exported k r r' /\ relay_rest r').
    { clear - Ok. induction k as [|k IH]; intros r b R F Lb Le; destruct (C65_progress G m exported n Ok r R) as [P Q].
      all: destruct Q as [Z|(mv & r' & A & I0 & D)]; [rewrite Forall_forall in *; intros st Hs; assert (X := F st Hs); cbn beta in X; unfold len; lia|exists 0%nat, r; split; [constructor|exact Z]|].
      all: assert (L := P mv r' A I0 D); try lia.
      destruct (IH r' (b + 1)%nat (y_move m exported n r mv r' R A D)) as (k' & r'' & Go & Z); [exact (calls_grow G m exported n Ok r mv r' I0 D b F)|lia|lia|]. exists (S k'), r''. split; [exact (yg_move m exported k' r mv r' r'' A I0 D Go)|exact Z]. }
    exact (Go (left_over r) r b R F Lb (le_n _)).
Qed.
Print Assumptions C65_all_answered.

(** ** By name *)

(** With the modules' tables [h] loaded, and every guest having the handlers it exports: a call of an import is answered by a handler that some module exports
    under the very name of the import; or no module does, and it is refused. *)
Lemma export_in : forall h j t e, nth_error h j = Some t -> In e t -> op_dir e = 1 -> In ((op_ns e, op_name e), mkDest j (op_index e)) (all_exports h).
Proof.
  intros h j t e E He D. unfold all_exports. assert (Q : forall h i j, nth_error h j = Some t -> In ((op_ns e, op_name e), mkDest (i + j) (op_index e)) (concat (numbered i h))).
  { clear h j E. induction h as [|u h IH]; intros i [|j] E; try discriminate E; cbn [numbered concat]; apply in_or_app.
    - injection E as ->. left. unfold exports_in. apply in_flat_map. exists e. rewrite D, Nat.add_0_r. split; [exact He|left; reflexivity].
    - right. rewrite Nat.add_succ_r. exact (IH (S i) j E). }
  exact (Q h 0%nat j E).
Qed.
Theorem C65_import : forall G (exported : nat -> ikind -> list (option G)) (impl : nat -> operation -> G) h m,
  Forall table_ok h -> (forall t o, In t h -> In o t -> op_index o < 2^32) -> (forall i k, len (exported i k) < 2^32) -> load_all h = Ret m ->
  (forall j t e, nth_error h j = Some t -> In e t -> op_dir e = 1 -> op_type e = 1 -> nth_error (exported j RR) (N.to_nat (op_index e)) = Some (Some (impl j e))) ->
  forall r, relay_reach m exported (length h) r ->
  forall i t op, nth_error h i = Some t -> In op t -> op_dir op = 2 -> op_type op = 1 ->
  (forall u e, In u h -> In e u -> op_dir e = 1 -> op_ns e = op_ns op -> op_name e = op_name op -> op_type e = 1) ->
  forall st c o, nth_error (y_nets r) i = Some st -> In c (p_calls (n_peer st Client)) -> 8 <= len (c_md c) -> number4 (c_md c) = op_index op -> results c = [o] ->
  ((forall u e, In u h -> In e u -> op_dir e = 1 -> ~ (op_ns e = op_ns op /\ op_name e = op_name op)) /\ o = inr not_found) \/
  exists j u e sj x, nth_error h j = Some u /\ In e u /\ op_dir e = 1 /\ op_type e = 1 /\ op_ns e = op_ns op /\ op_name e = op_name op /\
    nth_error (y_nets r) j = Some sj /\ In x (p_runs (n_peer sj Client)) /\ r_handler x = inr (impl j e) /\ r_data x = c_data c /\ r_md x = skipn 8 (c_md c) /\ r_out x = Some o.
Proof.
  intros G exported impl h m F I32 Fx E Im r R i t op Et Ho Dd Ty Kd st c o N0 Hc L8 Nu Rc. assert (Ok := loaded_ok G exported h m F I32 Fx E).
  destruct (In_nth_error _ _ Hc) as [k Ek]. destruct (complete_proof h i t op RR F Et Ho Dd Ty) as (m' & rr & E' & Lk & C1 & C2). assert (m' = m) by congruence. subst m'. rewrite (linked_nth h m i RR _ F E) in Lk.
  destruct (relayed_all m exported _ Ok r i st k c o R N0 Ek Rc) as [[Nl Oo]|(d & [_ Lt] & Q)].
  - left. split; [|rewrite Oo; destruct (N.ltb_spec (len (c_md c)) 8); [lia|reflexivity]]. intros u e Hu He De [En Em]. destruct (In_nth_error _ _ Hu) as [j Ej].
    assert (X := export_in h j u e Ej He De). rewrite En, Em in X. destruct (nth_error (m_tabs m i RR) (N.to_nat (op_index op))) as [[d|]|] eqn:S; [|exact (C2 ltac:(congruence) _ X)|exact (C2 ltac:(congruence) _ X)].
    apply (Nl d). split; [exact L8|]. rewrite Nu. exact S.
  - right. rewrite Nu in Lt. rewrite Lt in Lk. assert (X : In ((op_ns op, op_name op), d) (all_exports h)) by (apply C1; congruence).
    destruct (export_where _ _ _ X) as (u & e & A1 & A2 & A3 & A4 & A5). injection A5 as A5 A6. assert (A7 : op_type e = 1) by (apply (Kd u e (nth_error_In _ _ A1) A2 A3); assumption).
    assert (Ie := Im _ _ _ A1 A2 A3 A7). rewrite A4 in Ie. destruct Q as [[Ng _]|(sj & x & g & B1 & B2 & B3 & B4 & B5 & B6 & B7)]; [exfalso; exact (Ng _ Ie)|].
    exists (d_inst d), u, e, sj, x. do 8 (split; [assumption|]). split; [congruence|]. split; [exact B5|]. split; [exact B6|exact B7].
Qed.
Print Assumptions C65_import.

(** ** An execution *)
Definition ok_relay {G} (r : relay G) (mv : rmove) : bool :=
  match mv with
  | RNet i mv => match nth_error (y_nets r) i with
      | Some st => match mv with
          | MCall s data md => wfb md && (len md <? 2^24) && (len md + len data <? 2^32 - 13) && (len (p_calls (n_peer st s)) <? 2^30)
          | MSubscribe s k => match nth_error (p_calls (n_peer st s)) k with Some c => negb (c_subscribed c) | None => false end
          | MConclude _ _ (inl (data, md)) => (len md <? 2^24) && (len md + len data <? 2^32 - 13)
          | MConclude _ _ (inr msg) => len msg <? 2^32 - 13
          | _ => true
          end
      | None => false
      end
  | RForward _ _ => forallb (fun st => len (p_calls (n_peer st Server)) <? 2^30) (y_nets r)
  | RBack _ => true
  end.
Fixpoint ok_relays {G} (m : mesh) (exported : nat -> ikind -> list (option G)) (r : relay G) (ms : list rmove) : option (relay G) :=
  match ms with
  | [] => Some r
  | mv :: ms' => if ok_relay r mv then match do_relay m exported r mv with Some r' => ok_relays m exported r' ms' | None => None end else None
  end.
Lemma ok_relay_allowed : forall G (r : relay G) mv, ok_relay r mv = true -> relay_allowed r mv.
Proof.
  intros G r mv O. destruct mv as [i mv|i j|k]; cbn [ok_relay relay_allowed] in *; [|apply Forall_forall; intros st Hs; apply N.ltb_lt; rewrite forallb_forall in O; exact (O st Hs)|exact Logic.I].
  intros st N0. rewrite N0 in O. destruct mv as [s data md|s k|s|s j|s j [[data md]|msg]]; cbn [allowed] in *; try exact Logic.I.
  - apply andb_prop in O as [O L]. apply andb_prop in O as [O F]. apply andb_prop in O as [W L']. split; [|apply N.ltb_lt; exact L]. split; [apply wfb_wf; exact W|]. split; [apply N.ltb_lt; exact L'|apply N.ltb_lt; exact F].
  - intros c E. rewrite E in O. destruct (c_subscribed c); [discriminate O|reflexivity].
  - apply andb_prop in O as [A B]. split; apply N.ltb_lt; assumption.
  - apply N.ltb_lt. exact O.
Qed.
Lemma ok_relays_reach : forall G (m : mesh) (exported : nat -> ikind -> list (option G)) n ms r r', relay_reach m exported n r -> ok_relays m exported r ms = Some r' -> relay_reach m exported n r'.
Proof.
  induction ms as [|mv ms IH]; intros r r' R E; cbn [ok_relays] in E; [assert (r = r') by congruence; subst r'; exact R|].
  destruct (ok_relay r mv) eqn:O; [|discriminate E]. destruct (do_relay m exported r mv) as [x|] eqn:D; [|discriminate E]. apply (IH x r'); [|exact E]. apply (y_move _ _ _ r mv x R); [|exact D]. exact (ok_relay_allowed _ _ _ O).
Qed.

(** Two modules.  The first imports [1].[2], which the second exports as its number 3, and [9].[9], which nobody exports; and it imports [4].[5], which it
    exports itself. *)
Definition y_mods : list (list operation) := [[mkOp 0 1 2 [1] [2]; mkOp 1 1 2 [9] [9]; mkOp 2 1 2 [4] [5]; mkOp 1 1 1 [4] [5]]; [mkOp 3 1 1 [1] [2]]].
Definition y_exported (i : nat) (k : ikind) : list (option N) :=
  match i, k with O, RR => [None; Some 45] | S O, RR => [None; None; None; Some 12] | _, _ => [] end.
Lemma y_mods_ok : Forall table_ok y_mods /\ (forall t o, In t y_mods -> In o t -> op_index o < 2^32) /\ (forall i k, len (y_exported i k) < 2^32).
Proof.
  split; [repeat constructor; cbn; intuition discriminate|]. split; [|intros [|[|i]] [| | |]; reflexivity]. intros t o [<-|[<-|[]]]; cbn [In]; intros Ho; repeat (destruct Ho as [<-|Ho]; [reflexivity|]); destruct Ho.
Qed.
Definition y_mesh : mesh := match load_all y_mods with Ret m => m | _ => new_mesh end.
Lemma y_loaded : load_all y_mods = Ret y_mesh.
Proof. reflexivity. Qed.
(** The guest of the first calls all three, the third out of turn; the second answers with data and metadata. *)
Definition y_run : list rmove :=
  [RNet 0 (MCall Client [7; 7] (to 0 9)); RNet 0 (MCall Client [8] (to 1 9)); RNet 0 (MCall Client [6] (to 2 5)); RNet 0 (MSubscribe Client 0); RNet 0 (MSubscribe Client 1); RNet 0 (MSubscribe Client 2);
   RNet 0 (MReceive Server); RNet 0 (MReceive Server); RNet 0 (MReceive Server); RForward 0 2; RNet 0 (MReceive Client); RForward 0 0; RNet 0 (MTask Server 0);
   RNet 1 (MReceive Client); RNet 1 (MTask Client 0)].
Definition y_rest : list rmove :=
  [RNet 1 (MConclude Client 0 (inl ([33], [44]))); RNet 1 (MReceive Server); RNet 0 (MTask Client 0); RNet 0 (MConclude Client 0 (inr [99])); RBack 1; RNet 0 (MReceive Server); RBack 0; RNet 0 (MReceive Client); RNet 0 (MReceive Client); RNet 0 (MReceive Client)].
Example C65_ex : exists r r', relay_reach y_mesh y_exported 2 r /\ relay_reach y_mesh y_exported 2 r' /\ mesh_ok y_mesh y_exported 2 /\ relay_rest r' /\ roomy r /\ left_over r = 15%nat /\ left_over r' = 5%nat /\
  map (fun st => map results (p_calls (n_peer st Client))) (y_nets r) = [[[]; []; []]; []] /\
  map (fun st => map results (p_calls (n_peer st Client))) (y_nets r') = [[[inl ([33], [44])]; [inr not_found]; [inr [99]]]; []] /\
  map (fun st => map (fun x => (r_handler x, r_data x, r_md x)) (p_runs (n_peer st Client))) (y_nets r') = [[(inr 45, [6], [5])]; [(inr 12, [7; 7], [9])]] /\
  y_links r' = [mkLink 0 0 0 0; mkLink 0 1 1 0].
Proof.
  destruct (ok_relays y_mesh y_exported (relay_create 2) y_run) as [r|] eqn:X; [|vm_compute in X; discriminate X]. assert (R := ok_relays_reach _ _ _ 2 _ _ _ (y_init _ _ _) X).
  destruct (ok_relays y_mesh y_exported r y_rest) as [r'|] eqn:Y; [|exfalso; vm_compute in X; injection X as <-; vm_compute in Y; discriminate Y]. assert (R' := ok_relays_reach _ _ _ 2 _ _ _ R Y).
  exists r, r'. split; [exact R|]. split; [exact R'|]. split; [destruct y_mods_ok as (A & B & C); exact (loaded_ok _ _ _ _ A B C y_loaded)|]. clear R R'. vm_compute in X. injection X as <-. vm_compute in Y. injection Y as <-. split.
  - apply Forall_cons; [|apply Forall_cons; [|constructor]]; intros [|]; vm_compute; (split; [reflexivity|]; split; [reflexivity|]); repeat constructor; discriminate.
  - split; [apply Forall_cons; [|apply Forall_cons; [|constructor]]; vm_compute; reflexivity|]. vm_compute. repeat split.
Qed.

(** The exports of a name must be of the import's kind: the tables of destinations are by kind, the exports by name only (mesh.go:100-158).  Here the first module
    imports [1].[2] as a request/response, the second exports it as a stream, number 0; and what answers is the second's request/response number 0, [6].[6]. *)
Definition k_mods : list (list operation) := [[mkOp 0 1 2 [1] [2]]; [mkOp 0 3 1 [1] [2]; mkOp 0 1 1 [6] [6]]].
Definition k_exported (i : nat) (k : ikind) : list (option N) := match i, k with S O, RR => [Some 66] | _, _ => [] end.
Definition k_mesh : mesh := match load_all k_mods with Ret m => m | _ => new_mesh end.
Definition k_run : list rmove :=
  [RNet 0 (MCall Client [7] (to 0 9)); RNet 0 (MSubscribe Client 0); RNet 0 (MReceive Server); RForward 0 0; RNet 1 (MReceive Client); RNet 1 (MTask Client 0); RNet 1 (MConclude Client 0 (inl ([33], []))); RNet 1 (MReceive Server); RBack 0; RNet 0 (MReceive Client)].
Theorem C65_kind_refuted : exists r st c, Forall table_ok k_mods /\ load_all k_mods = Ret k_mesh /\ mesh_ok k_mesh k_exported 2 /\ relay_reach k_mesh k_exported 2 r /\ nth_error (y_nets r) 0 = Some st /\
  p_calls (n_peer st Client) = [c] /\ number4 (c_md c) = 0 /\ results c = [inl ([33], [])] /\
  exists sj x, nth_error (y_nets r) 1 = Some sj /\ p_runs (n_peer sj Client) = [x] /\ r_handler x = inr 66.
Proof.
  assert (T : Forall table_ok k_mods) by (repeat constructor; cbn; intuition discriminate).
  destruct (ok_relays k_mesh k_exported (relay_create 2) k_run) as [r|] eqn:X; [|vm_compute in X; discriminate X]. assert (R := ok_relays_reach _ _ _ 2 _ _ _ (y_init _ _ _) X).
  destruct (nth_error (y_nets r) 0) as [st|] eqn:N0; [|exfalso; vm_compute in X; injection X as <-; vm_compute in N0; discriminate N0].
  destruct (p_calls (n_peer st Client)) as [|c cs] eqn:Pc; [exfalso; vm_compute in X; injection X as <-; vm_compute in N0; injection N0 as <-; vm_compute in Pc; discriminate Pc|].
  destruct (nth_error (y_nets r) 1) as [sj|] eqn:N1; [|exfalso; vm_compute in X; injection X as <-; vm_compute in N1; discriminate N1].
  destruct (p_runs (n_peer sj Client)) as [|x xs] eqn:Px; [exfalso; vm_compute in X; injection X as <-; vm_compute in N1; injection N1 as <-; vm_compute in Px; discriminate Px|].
  exists r, st, c. split; [exact T|]. split; [reflexivity|]. split.
  - refine (loaded_ok _ _ k_mods _ T _ _ eq_refl); [|intros [|[|i]] [| | |]; reflexivity]. intros t o [<-|[<-|[]]]; cbn [In]; intros Ho; repeat (destruct Ho as [<-|Ho]; [reflexivity|]); destruct Ho.
  - split; [exact R|]. split; [exact N0|]. clear R. vm_compute in X. injection X as <-. vm_compute in N0. injection N0 as <-. vm_compute in N1. injection N1 as <-. vm_compute in Pc. injection Pc as <- <-. vm_compute in Px. injection Px as <- <-.
    split; [reflexivity|]. split; [reflexivity|]. split; [reflexivity|]. eexists _, _. split; [reflexivity|]. split; reflexivity.
Qed.
Print Assumptions C65_kind_refuted.
