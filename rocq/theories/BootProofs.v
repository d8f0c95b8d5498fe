(** Proofs about NewInstance. *)
From Coq Require Import List NArith ZArith Lia Bool ZifyBool ZifyNat ZifyN.
From Verif Require Import Base BaseLemmas OperationsModel OperationsSpec OperationsProofs InvokeModel InvokeSpec InvokeProofs FramesModel FramesSpec FramesProofs BatchModel BatchSpec BatchProofs BootModel BootSpec.
Import ListNotations.
Open Scope N_scope.

Lemma read_at : forall before bs after, mem_read (before ++ bs ++ after) (len before) (len bs) = bs.
Proof.
  intros before bs after. unfold mem_read. rewrite !len_app. replace (len before + len bs <=? len before + (len bs + len after)) with true by (symmetry; apply N.leb_le; lia).
  unfold len. rewrite !Nat2N.id, skipn_app, skipn_all, Nat.sub_diag. cbn [app skipn]. rewrite firstn_app, firstn_all, Nat.sub_diag. cbn [firstn]. apply app_nil_r.
Qed.
Lemma placed : forall mem ptr bs, ptr + len bs <= len mem ->
  exists before after, len before = ptr /\ overlay mem (firstn (N.to_nat ptr) mem ++ bs) = before ++ bs ++ after.
Proof.
  intros mem ptr bs L. exists (firstn (N.to_nat ptr) mem), (skipn (length (firstn (N.to_nat ptr) mem ++ bs)) mem). unfold len in *. split.
  - rewrite firstn_length. lia.
  - unfold overlay. rewrite firstn_all2 by (rewrite app_length, firstn_length; lia). rewrite <- app_assoc. reflexivity.
Qed.
Lemma tells_list : forall H (h : list (icall H)), few h -> tells (operation_list (irun h)) h.
Proof.
  intros H h F k i ns op. split; [apply (advertised_exports_proof h k i ns op F)|]. rewrite (advertised_imports_proof h k i ns op F). split; intros [A B]; split; try exact A; symmetry; exact B.
Qed.
Lemma list_len : forall H (h : list (icall H)) bs, few h -> names_ok h -> table_size (operation_list (irun h)) < 2^32 -> OperationList (irun h) = Ret bs -> len bs = table_size (operation_list (irun h)).
Proof.
  intros H h bs F N S E. destruct (operation_list_range h F N) as [R Q]. unfold OperationList in E. rewrite ToBytes_spec in E; [|exact S|apply op_range_fits; assumption]. injection E as <-.
  rewrite table_size_len. unfold table_bytes. rewrite len_app. reflexivity.
Qed.
Theorem boot_library : forall H (h : list (icall H)) p, few h -> names_ok h -> table_size (operation_list (irun h)) < 2^32 -> at_ops p + table_size (operation_list (irun h)) <= len (mem_ops p) ->
  NewInstance (library_module (irun h) p) = Done (mkInstance (at_guest p) (at_host p) (operation_list (irun h)) []).
Proof.
  intros H h p F N S L. destruct (published_proof h F N S) as (bs & E & Fb). assert (Lb := list_len H h bs F N S E). unfold NewInstance, library_module. cbn [x_init x_send x_ops negb].
  unfold wasm_call, guest_init, guest_ops. cbn [fst snd host_calls host_call i_ops i_recv i_send_ptr i_recv_ptr]. rewrite E. cbn [fst snd host_calls host_call i_ops i_recv i_send_ptr i_recv_ptr].
  replace (u32 (len bs)) with (len bs) by (unfold u32; rewrite N.mod_small; lia). rewrite <- Lb in L.
  destruct (placed (mem_ops p) (at_ops p) bs L) as (before & after & <- & ->). rewrite read_at, Fb. reflexivity.
Qed.

(** ** Any guest *)
Lemma calls_state : forall cs i i' o b, host_calls i cs = Done i' -> i_ops i = decoded o -> (i_send_ptr i, i_recv_ptr i) = b ->
  i_ops i' = decoded (fold_left (fun o c => match c with (HOps p n, mem) => Some (mem_read mem p n) | _ => o end) cs o) /\
  (i_send_ptr i', i_recv_ptr i') = fold_left (fun o c => match c with (HBuffers s r, _) => (s, r) | _ => o end) cs b.
Proof.
  induction cs as [|[c mem] cs IH]; intros i i' o b E Ho Hb; cbn [host_calls fold_left] in *; [injection E as <-; split; assumption|].
  destruct (host_call i c mem) as [j| | |] eqn:C; try discriminate E. destruct c as [s r|p n|n]; cbn [host_call] in C.
  - injection C as <-. apply (IH _ _ _ _ E); [exact Ho|reflexivity].
  - destruct (FromBytes (mem_read mem p n)) as [t|e|] eqn:Fb; try discriminate C; injection C as <-; (apply (IH _ _ _ _ E); [cbn [i_ops decoded]; rewrite Fb; reflexivity|exact Hb]).
  - destruct (hostSend (mem_read mem (i_recv_ptr i) n)) as [bufs|e|]; try discriminate C. destruct (len (i_recv i ++ bufs) <=? room); [|discriminate C]. injection C as <-. apply (IH _ _ _ _ E); assumption.
Qed.
Lemma wasm_done : forall i f i', wasm_call i f = Done i' -> host_calls i (fst f) = Done i'.
Proof. intros i f i' E. unfold wasm_call in E. destruct (host_calls i (fst f)); try discriminate E. destruct (snd f); [exact E|discriminate E]. Qed.
Theorem boot_any : forall m i, NewInstance m = Done i -> i_ops i = decoded (announced (calls_made m)) /\ (i_send_ptr i, i_recv_ptr i) = buffers (calls_made m).
Proof.
  intros m i E. unfold NewInstance in E. unfold calls_made, announced, buffers. destruct (x_init m) as [init|]; [|discriminate E]. destruct (negb (x_send m)); [discriminate E|].
  destruct (wasm_call _ (init buffer_size buffer_size (1024 * 1024))) as [j| | |] eqn:E1; try discriminate E. destruct (x_ops m) as [f|]; [|discriminate E].
  apply wasm_done in E1. apply wasm_done in E. rewrite !fold_left_app. destruct (calls_state _ _ _ None (0, 0) E1 eq_refl eq_refl) as [A1 A2]. exact (calls_state _ _ _ _ _ E A1 A2).
Qed.
(** The ways to fail. *)
Lemma wasm_crash : forall i f, wasm_call i f <> Crash.
Proof. intros i f E. unfold wasm_call in E. destruct (host_calls i (fst f)); try discriminate E. destruct (snd f); discriminate E. Qed.
Theorem boot_crash : forall m, NewInstance m = Crash <-> x_send m = true /\ x_ops m = None /\ exists init i, x_init m = Some init /\ wasm_call (mkInstance 0 0 [] []) (init buffer_size buffer_size (1024 * 1024)) = Done i.
Proof.
  intro m. unfold NewInstance. split.
  - intro E. destruct (x_init m) as [init|] eqn:I; [|discriminate E]. destruct (x_send m); [|discriminate E]. cbn [negb] in E.
    destruct (wasm_call _ (init buffer_size buffer_size (1024 * 1024))) as [j| | |] eqn:E1; try discriminate E; [|destruct (wasm_crash _ _ E1)]. destruct (x_ops m) as [f|]; [destruct (wasm_crash _ _ E)|]. eauto 6.
  - intros (-> & -> & init & i & -> & ->). reflexivity.
Qed.

(** ** Frames sent while the instance is made *)
Lemma one_frame : forall b, len b < 2^24 -> hostSend (bytes3 (len b) ++ b) = Ret [b].
Proof.
  intros b L. unfold hostSend.
  assert (E : 0 <? len (bytes3 (len b) ++ b) = true) by (rewrite len_app, bytes3_len; apply N.ltb_lt; lia).
  assert (Z : exists n, length (bytes3 (len b) ++ b) = S n) by (exists (2 + length b)%nat; rewrite app_length; reflexivity). destruct Z as [n Z]. rewrite Z. cbn [host_loop]. rewrite E. rewrite slice_to_app by (rewrite bytes3_len; reflexivity). cbn [bind]. rewrite slice_from_app by (rewrite bytes3_len; reflexivity). cbn [bind].
  change (unbe (0 :: bytes3 (len b))) with (unbe (bytes3 (len b))). rewrite unbe_bytes3 by exact L. assert (A := slice_from_app no_error b [] (len b) eq_refl). rewrite app_nil_r in A. rewrite A. reflexivity.
Qed.
Theorem early_frames : forall fs cs i, Forall2 (sending (i_recv_ptr i)) fs cs -> Forall (fun b => len b < 2^24) fs -> len (i_recv i) <= room ->
  host_calls i cs = if len (i_recv i ++ fs) <=? room then Done (mkInstance (i_send_ptr i) (i_recv_ptr i) (i_ops i) (i_recv i ++ fs)) else Blocked.
Proof.
  intros fs cs i S. revert i S. revert cs. induction fs as [|b fs IH]; intros cs i S F L; inversion S as [|? c ? cs' S1 S2]; subst.
  - rewrite app_nil_r. apply N.leb_le in L. rewrite L. destruct i; reflexivity.
  - inversion F as [|? ? F1 F2]; subst. destruct c as [hc mem]. destruct S1 as [E1 (before & after & Lb & E2)]. cbn [fst snd] in *. subst hc mem. cbn [host_calls host_call].
    rewrite <- Lb at 1. replace (3 + len b) with (len (bytes3 (len b) ++ b)) by (rewrite len_app; reflexivity). rewrite (app_assoc (bytes3 _)), read_at, one_frame by exact F1.
    rewrite !len_app. replace (len (b :: fs)) with (1 + len fs) by (rewrite len_cons; lia). change (len [b]) with 1.
    destruct (N.leb_spec (len (i_recv i) + 1) room) as [Q|Q].
    + rewrite IH; [|exact S2|exact F2|cbn [i_recv]; rewrite len_app; change (len [b]) with 1; exact Q]. cbn [i_recv i_send_ptr i_recv_ptr i_ops]. rewrite !len_app, <- app_assoc. change (len [b]) with 1. rewrite N.add_assoc. reflexivity.
    + replace (len (i_recv i) + (1 + len fs) <=? room) with false by (symmetry; apply N.leb_gt; lia). reflexivity.
Qed.
Theorem early_boot : forall H (h : list (icall H)) p fs cs, few h -> names_ok h -> table_size (operation_list (irun h)) < 2^32 -> at_ops p + table_size (operation_list (irun h)) <= len (mem_ops p) ->
  Forall2 (sending (at_host p)) fs cs -> Forall (fun b => len b < 2^24) fs ->
  NewInstance (mkModule (Some (fun a b c => (fst (guest_init p a b c) ++ cs, true))) true (Some (guest_ops (irun h) p))) =
  if len fs <=? 100 then Done (mkInstance (at_guest p) (at_host p) (operation_list (irun h)) fs) else Blocked.
Proof.
  intros H h p fs cs F N S L Hs Hf. destruct (published_proof h F N S) as (bs & E & Fb). assert (Lb := list_len H h bs F N S E). unfold NewInstance. cbn [x_init x_send x_ops negb].
  unfold wasm_call at 1. unfold guest_init. cbn [fst snd app host_calls host_call i_ops i_recv i_send_ptr i_recv_ptr].
  rewrite (early_frames fs cs); [|exact Hs|exact Hf|discriminate]. cbn [i_recv app i_send_ptr i_recv_ptr i_ops]. unfold room. destruct (len fs <=? 100); [|reflexivity].
  unfold wasm_call, guest_ops. rewrite E. cbn [fst snd host_calls host_call i_ops i_recv i_send_ptr i_recv_ptr].
  replace (u32 (len bs)) with (len bs) by (unfold u32; rewrite N.mod_small; lia). rewrite <- Lb in L.
  destruct (placed (mem_ops p) (at_ops p) bs L) as (before & after & <- & ->). rewrite read_at, Fb. reflexivity.
Qed.
