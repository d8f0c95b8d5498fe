(** Lemmas for C78. *)
From Coq Require Import Ascii String List NArith ZArith Lia Bool ZifyBool ZifyNat ZifyN.
From Verif Require Import Base BaseLemmas FramesModel FramesSpec OperationsModel InvokeModel InvokeSpec LookupModel StreamIdModel MonoModel MeshModel MeshSpec MeshProofs OutcomeModel OutcomeSpec OutcomeProofs OutcomeProps ProxyModel DispatchModel DispatchSpec.
From Verif Require Import CallModel CallSpec CallInv CallProofs CallProps RelayModel RelaySpec RelayProofs RelayProps.
From Verif Require Import MsgpackModel MsgpackSpec MsgpackClient MsgpackProofs TransformModel TransformSpec TransformProofs StubModel StubSpec StubProofs CustomerModel CustomerSpec.
Import ListNotations.
Local Open Scope list_scope.
Open Scope N_scope.

(** ** Records of strings *)
Lemma str_len : forall s, len s < 2^32 -> len (mv_bytes (scal_mv (SStr s))) <= 5 + len s.
Proof.
  intros s L. cbn [scal_mv mv_bytes]. rewrite len_app. assert (H : forall f n, len (str_head f n) <= 5).
  { intros f n. destruct f; cbn [str_head]; rewrite ?len_cons, ?be_len; cbn; lia. }
  specialize (H (short_len 32 true (len s)) (len s)). lia.
Qed.

Lemma text_callable : forall sc e total, NoDup (map fst sc) -> Forall (fun f => snd f = FScal KStr /\ len (fst f) <= 16 /\ wf (fst f)) sc -> len sc <= 16 ->
  Forall (fun f => exists s, e (fst f) = VScal (SStr s) /\ wf s /\ len s <= total) sc -> len sc * (total + 26) + 5 < 2^32 -> total < 2^32 -> callable sc e.
Proof.
  intros sc e total ND F L V T T'.
  assert (P : Forall (fun f => exists s, e (fst f) = VScal (SStr s) /\ wf s /\ len s <= total /\ len (fst f) <= 16 /\ wf (fst f) /\ snd f = FScal KStr) sc).
  { rewrite Forall_forall in *. intros f Hf. destruct (V f Hf) as (s & A & B & C). destruct (F f Hf) as (D & E & G). exists s. repeat split; assumption. }
  clear F V. split; [|split].
  - split; [exact ND|]. split; [lia|]. eapply Forall_impl; [|exact P]. cbn beta. intros f (s & _ & _ & _ & A & B & _). split; [lia|exact B].
  - eapply Forall_impl; [|exact P]. cbn beta. intros f (s & -> & A & B & _ & _ & ->). cbn [field_ok kind_of scal_ok]. split; [reflexivity|]. split; [lia|exact A].
  - assert (H : forall sub, Forall (fun f => exists s, e (fst f) = VScal (SStr s) /\ wf s /\ len s <= total /\ len (fst f) <= 16 /\ wf (fst f) /\ snd f = FScal KStr) sub ->
      let l := flat_map (fun f => inl (PVal (SStr (fst f))) :: field_calls (e (fst f))) sub in len (calls_bytes l) <= len sub * (total + 26) /\ calls_excess l = 0).
    { induction sub as [|f sub IH]; intro G; [cbn; split; [lia|reflexivity]|]. apply Forall_cons_iff in G as [(s & A & B & C & D & E & _) G]. destruct (IH G) as [I1 I2]. cbn [flat_map]. rewrite A. cbn [field_calls app].
      split.
      - unfold calls_bytes in *. cbn [flat_map prim_bytes]. rewrite !len_app, len_cons. assert (X := str_len (fst f) ltac:(lia)). assert (Y := str_len s ltac:(lia)). lia.
      - unfold calls_excess, MsgpackSpec.sum in *. cbn [map prim_excess scal_excess fold_right]. rewrite I2. reflexivity. }
    destruct (H sc P) as [H1 H2]. unfold struct_calls. unfold calls_bytes, calls_excess, MsgpackSpec.sum in *. cbn [flat_map map prim_bytes prim_excess fold_right]. rewrite len_app. cbn zeta in H2. rewrite H2.
    assert (M : len (map_head (short_len 16 false (len sc)) (len sc)) <= 5) by (destruct (short_len 16 false (len sc)); cbn [map_head]; rewrite ?len_cons, ?be_len; cbn; lia). lia.
Qed.

Lemma strings_callable : forall a b, wf a -> wf b -> len a < 2^30 -> len b < 2^30 -> callable strings_schema (strings a b).
Proof.
  intros a b Wa Wb La Lb. apply (text_callable _ _ (2^30)); [repeat constructor; cbn; intuition discriminate| |vm_compute; discriminate| |vm_compute; reflexivity|reflexivity].
  - repeat (apply Forall_cons; [split; [reflexivity|split; [vm_compute; discriminate|apply wfb_wf; reflexivity]]|]). constructor.
  - apply Forall_cons; [exists a; split; [reflexivity|split; [exact Wa|lia]]|]. apply Forall_cons; [exists b; split; [reflexivity|split; [exact Wb|lia]]|]. constructor.
Qed.
Lemma customer_callable : forall a b, wf a -> wf b -> len a < 2^30 -> len b < 2^30 -> callable customer_schema (customer a b).
Proof.
  intros a b Wa Wb La Lb. apply (text_callable _ _ (2^30)); [repeat constructor; cbn; intuition discriminate| |vm_compute; discriminate| |vm_compute; reflexivity|reflexivity].
  - repeat (apply Forall_cons; [split; [reflexivity|split; [vm_compute; discriminate|apply wfb_wf; reflexivity]]|]). constructor.
  - apply Forall_cons; [exists a; split; [reflexivity|split; [exact Wa|lia]]|]. apply Forall_cons; [exists b; split; [reflexivity|split; [exact Wb|lia]]|]. constructor.
Qed.
Lemma greeting_callable : forall a, wf a -> len a < 2^32 - 32 -> callable greeting_schema (greeting a).
Proof.
  intros a Wa La. apply (text_callable _ _ (2^32 - 33)); [repeat constructor; cbn; intuition discriminate| |vm_compute; discriminate| |vm_compute; reflexivity|reflexivity].
  - repeat (apply Forall_cons; [split; [reflexivity|split; [vm_compute; discriminate|apply wfb_wf; reflexivity]]|]). constructor.
  - apply Forall_cons; [exists a; split; [reflexivity|split; [exact Wa|lia]]|]. constructor.
Qed.
Lemma text_readable : forall sc e, Forall (fun f => snd f = FScal KStr) sc -> readable sc e sc.
Proof.
  intros sc e F n k H. rewrite Forall_forall in F. split.
  - intros k' H'. assert (A := F _ H). assert (B := F _ H'). cbn [snd] in A, B. congruence.
  - intro X. contradict X. exact (in_map fst _ _ H).
Qed.

Section Run.
Context (f64to32 : N -> N) (pt : bytes -> option gtime) (text : rerr -> bytes).
Notation string_of := (string_of f64to32 pt).

Lemma string_round : forall s, wf s -> len s < 2^32 - 5 -> exists enc, transform_encode (SStr s) = Ret enc /\ transform_decode f64to32 pt KStr enc = Ret (SStr s).
Proof.
  intros s W L. apply (transform_round f64to32 pt (SStr s)); [cbn [scal_ok]; split; [lia|exact W]|]. cbn [scal_excess]. assert (H := str_len s ltac:(lia)). lia.
Qed.

(** ** The two services *)
Lemma concat_answers : forall a b sid data o, wf a -> wf b -> len a < 2^30 -> len b < 2^30 -> codec_encode strings_schema (strings a b) = Ret data ->
  wrapper_answers f64to32 pt text concat_service sid data = [o] -> exists enc, transform_encode (SStr (a ++ str " " ++ b)) = Ret enc /\ o = inl (enc, []).
Proof.
  intros a b sid data o Wa Wb La Lb E A. unfold wrapper_answers in A.
  rewrite (wrapper_calls f64to32 pt text strings_schema (strings a b) concat_service sid data (strings_callable a b Wa Wb La Lb)) in A;
    [|cbn [sv_schema concat_service]; repeat constructor; cbn; intuition discriminate|apply text_readable; repeat constructor|exact E].
  assert (S : seen strings_schema (strings a b) concat_service = [VScal (SStr a); VScal (SStr b)]) by reflexivity. rewrite S in A. cbn [sv_body concat_service map string_in] in A. rewrite answers_outcome in A. cbn [outcome_of encode_value] in A.
  destruct (string_round (a ++ str " " ++ b)) as (enc & E1 & _).
  - apply wf_app. split; [exact Wa|]. apply wf_app. split; [apply wfb_wf; reflexivity|exact Wb].
  - rewrite !len_app. change (len (str " ")) with 1. lia.
  - rewrite E1 in A. exists enc. split; [exact E1|]. injection A as A. symmetry. exact A.
Qed.
Lemma greeting_answers : forall a sid data o, wf a -> len a < 2^32 - 32 -> codec_encode greeting_schema (greeting a) = Ret data ->
  wrapper_answers f64to32 pt text greeting_service sid data = [o] -> exists enc, transform_encode (SStr (str "Hello, " ++ a)) = Ret enc /\ o = inl (enc, []).
Proof.
  intros a sid data o Wa La E A. unfold wrapper_answers in A.
  rewrite (wrapper_calls f64to32 pt text greeting_schema (greeting a) greeting_service sid data (greeting_callable a Wa La)) in A;
    [|cbn [sv_schema greeting_service]; repeat constructor; cbn; intuition discriminate|apply text_readable; repeat constructor|exact E].
  assert (S : seen greeting_schema (greeting a) greeting_service = [VScal (SStr a)]) by reflexivity. rewrite S in A. cbn [sv_body greeting_service map string_in] in A. rewrite answers_outcome in A. cbn [outcome_of encode_value] in A.
  destruct (string_round (str "Hello, " ++ a)) as (enc & E1 & _).
  - apply wf_app. split; [apply wfb_wf; reflexivity|exact Wa].
  - rewrite !len_app. change (len (str "Hello, ")) with 7. lia.
  - rewrite E1 in A. exists enc. split; [exact E1|]. injection A as A. symmetry. exact A.
Qed.

(** ** The flow *)
Lemma get_first : forall o l, get_string f64to32 pt text (o :: l) = Some (string_of o).
Proof.
  intros o l. unfold get_string. set (tx := decode_value f64to32 pt text KStr). set (m := Map (Created None (map reply_call (o :: l))) tx).
  change (OutcomeModel.get zero_value (Map (Created (Some (map reply_call (o :: l))) []) tx)) with (OutcomeModel.get zero_value (settled m)).
  assert (X : exists r, outcome_of m = Some r /\ match r with inl (VResult (SStr s)) => s = string_of o | _ => [] = string_of o end).
  { destruct o as [[data md]|e]; cbn [m map reply_call outcome_of tx decode_value CustomerSpec.string_of].
    - destruct (transform_decode f64to32 pt KStr data) as [s| |]; eexists; (split; [reflexivity|]); [|reflexivity..]. destruct s; reflexivity.
    - eexists. split; reflexivity. }
  destruct X as (r & O & S). destruct (C55_outcome zero_value m r O) as (_ & _ & _ & ->). destruct r as [v|e]; cbn [results].
  - destruct v as [p|s]; [cbn [snd fst]; rewrite <- S; destruct p; reflexivity|]. destruct s; rewrite <- S; reflexivity.
  - rewrite <- S. reflexivity.
Qed.

Context (op_concat op_greeting : N) (first last : bytes).
Notation run := (new_customer f64to32 pt text op_concat op_greeting first last).

(** Waiting for concat, for greeting, done. *)
Inductive stage (p0 : pay) (acts : list (nat * (pay + bytes))) : flow_state -> Prop :=
| st_concat : in_turn 2 0 acts = [] -> stage p0 acts (mkFlow 1 0 1 [[]] [p0] [] false)
| st_greeting : forall o0 l0 p1, in_turn 2 0 acts = [o0] -> stub_call greeting_schema op_greeting (greeting (string_of o0)) = Ret p1 ->
    stage p0 acts (mkFlow 2 0 1 [o0 :: l0; []] [p0; p1] [] false)
| st_done : forall o0 l0 o1 l1 p1, in_turn 2 0 acts = [o0; o1] -> stub_call greeting_schema op_greeting (greeting (string_of o0)) = Ret p1 ->
    stage p0 acts (mkFlow 3 0 0 [o0 :: l0; o1 :: l1] [p0; p1] [KSuccess (VResult (SStr (string_of o1)))] false).

Lemma in_turn_snoc : forall n k acts i o, in_turn n k (acts ++ [(i, o)]) =
  if (Nat.ltb (length (in_turn n k acts)) n && Nat.eqb i (k + length (in_turn n k acts))) then in_turn n k acts ++ [o] else in_turn n k acts.
Proof.
  intros n k acts i o. revert n k. induction acts as [|[j a] acts IH]; intros n k.
  - destruct n as [|n]; cbn [app in_turn length]; [reflexivity|]. rewrite Nat.add_0_r. cbn [Nat.ltb Nat.leb andb]. destruct (Nat.eqb i k); [|reflexivity]. destruct n; reflexivity.
  - destruct n as [|n]; [reflexivity|]. cbn [app in_turn]. destruct (Nat.eqb j k); [|apply IH]. rewrite IH. cbn [length app]. rewrite Nat.add_succ_r. cbn [Nat.add].
    change (Nat.ltb (S (length (in_turn n (S k) acts))) (S n)) with (Nat.ltb (length (in_turn n (S k) acts)) n). destruct (Nat.ltb (length (in_turn n (S k) acts)) n && Nat.eqb i (S (k + length (in_turn n (S k) acts)))); reflexivity.
Qed.

Definition greets (o : pay + bytes) : Prop := exists p, stub_call greeting_schema op_greeting (greeting (string_of o)) = Ret p.
Lemma stages : forall p0 acts, stub_call strings_schema op_concat (strings first last) = Ret p0 ->
  (forall o os, in_turn 2 0 acts = o :: os -> greets o) -> stage p0 acts (run acts).
Proof.
  intros p0 acts E. unfold new_customer. cbn [flow_next z_pos]. rewrite E. cbn [await_call z_pos z_calls z_sent z_out z_stuck app].
  induction acts as [|[i o] acts IH] using rev_ind; intro G; [cbn [fold_left]; constructor; reflexivity|].
  rewrite fold_left_app. cbn [fold_left].
  assert (G' : forall o os, in_turn 2 0 acts = o :: os -> greets o).
  { intros x os Hx. apply (G x (if (Nat.ltb (length (in_turn 2 0 acts)) 2 && Nat.eqb i (0 + length (in_turn 2 0 acts))) then os ++ [o] else os)). rewrite in_turn_snoc, Hx. destruct (_ && _); reflexivity. }
  specialize (IH G'). rewrite in_turn_snoc in G. assert (Q := in_turn_snoc 2 0 acts i o).
  destruct IH as [T|o0 l0 p1 T E1|o0 l0 o1 l1 p1 T E1]; rewrite T in G, Q; cbn [length Nat.ltb Nat.leb andb app Nat.add] in G, Q; unfold flow_answer; cbn [z_stuck z_calls].
  - destruct i as [|i]; [|destruct i; cbn [nth_error]; apply st_concat; exact Q]. cbn [nth_error Nat.eqb] in *.
    destruct (G o [] eq_refl) as [p1 E1]. cbn [give nth skipn app firstn z_pos z_completed z_len z_sent z_out]. unfold flow_check. cbn [z_pos z_completed z_len z_calls z_sent z_out z_stuck Nat.leb flow_next nth].
    rewrite get_first, E1. cbn [await_call z_pos z_completed z_len z_calls z_sent z_out z_stuck app]. apply st_greeting; assumption.
  - destruct i as [|[|i]]; [| |destruct i; cbn [nth_error]; apply st_greeting; assumption]; cbn [nth_error Nat.eqb] in *.
    + cbn [give nth skipn app firstn z_pos z_completed z_len z_sent z_out]. apply st_greeting; assumption.
    + cbn [give nth skipn app firstn z_pos z_completed z_len z_sent z_out]. unfold flow_check. cbn [z_pos z_completed z_len z_calls z_sent z_out z_stuck Nat.leb flow_next nth].
      rewrite get_first. cbn [app]. apply st_done; assumption.
  - destruct i as [|[|i]]; [| |destruct i; cbn [nth_error]; apply st_done; assumption]; cbn [nth_error Nat.eqb] in *;
      cbn [give nth skipn app firstn z_pos z_completed z_len z_sent z_out]; apply st_done; assumption.
Qed.

(** What has been sent first remains what has been sent first. *)
Lemma next_sent : forall s, exists l, z_sent (flow_next f64to32 pt text op_concat op_greeting first last s) = z_sent s ++ l.
Proof.
  intro s. assert (A : forall r, exists l, z_sent (await_call s r) = z_sent s ++ l) by (intros [p| |]; cbn [await_call stuck z_sent]; [exists [p]; reflexivity|exists []; rewrite app_nil_r; reflexivity..]).
  unfold flow_next. destruct (z_pos s) as [|[|[|]]]; [apply A| | |exists []; rewrite app_nil_r; reflexivity]; destruct (get_string f64to32 pt text _); try apply A; exists []; rewrite app_nil_r; reflexivity.
Qed.
Lemma answer_sent : forall s a, exists l, z_sent (flow_answer f64to32 pt text op_concat op_greeting first last s a) = z_sent s ++ l.
Proof.
  intros s [i o]. unfold flow_answer. destruct (z_stuck s); [exists []; rewrite app_nil_r; reflexivity|]. destruct (nth_error (z_calls s) i) as [[|x l]|]; [|exists []; rewrite app_nil_r; reflexivity..].
  unfold flow_check. cbn [z_pos z_completed z_len z_calls z_sent z_out z_stuck]. destruct (Nat.leb _ _); [|exists []; rewrite app_nil_r; reflexivity].
  match goal with |- exists l, z_sent (flow_next _ _ _ _ _ _ _ ?s') = _ => destruct (next_sent s') as [l E] end. exists l. exact E.
Qed.
Lemma first_sent : forall p0 acts, stub_call strings_schema op_concat (strings first last) = Ret p0 -> nth_error (z_sent (run acts)) 0 = Some p0.
Proof.
  intros p0 acts E. unfold new_customer. cbn [flow_next z_pos]. rewrite E. cbn [await_call z_pos z_calls z_sent z_out z_stuck app].
  assert (X : forall l s, nth_error (z_sent s) 0 = Some p0 -> nth_error (z_sent (fold_left (flow_answer f64to32 pt text op_concat op_greeting first last) l s)) 0 = Some p0).
  { induction l as [|a l IH]; intros s Hs; [exact Hs|]. cbn [fold_left]. apply IH. destruct (answer_sent s a) as [q ->]. destruct (z_sent s); [discriminate Hs|exact Hs]. }
  apply X. reflexivity.
Qed.

Lemma in_turn_in : forall n k acts j o, nth_error (in_turn n k acts) j = Some o -> In ((k + j)%nat, o) acts.
Proof.
  intros n k acts. revert n k. induction acts as [|[i a] acts IH]; intros n k j o E; [destruct n, j; discriminate E|].
  destruct n as [|n]; [destruct j; discriminate E|]. cbn [in_turn] in E. destruct (Nat.eqb_spec i k) as [->|]; [|right; exact (IH _ _ _ _ E)].
  destruct j as [|j]; [left; rewrite Nat.add_0_r; cbn [nth_error] in E; congruence|]. right. cbn [nth_error] in E. rewrite Nat.add_succ_r. exact (IH _ _ _ _ E).
Qed.

Lemma customer_reads : forall data, wf first -> wf last -> len first < 2^30 -> len last < 2^30 -> codec_encode customer_schema (customer first last) = Ret data -> customer_request f64to32 pt data = Ret (first, last).
Proof.
  intros data Wf Wl Lf Ll E. assert (C := customer_callable first last Wf Wl Lf Ll). rewrite (codec_bytes pt _ _ C) in E.
  match type of E with Ret ?l = _ => assert (Q : data = l) by congruence; clear E; subst data end. unfold customer_request.
  assert (ND : NoDup (map fst customer_schema)) by (repeat constructor; cbn; intuition discriminate).
  assert (Rd : readable customer_schema (customer first last) customer_schema) by (apply text_readable; repeat constructor).
  destruct (evolve f64to32 pt customer_schema customer_schema (customer first last) (strings_env []) (S (length (calls_bytes (struct_calls customer_schema (customer first last)) ++ repeat 0 (N.to_nat (calls_excess (struct_calls customer_schema (customer first last))))))) C ND Rd) as (e' & D & V).
  { rewrite app_length. apply le_S, Nat.le_add_r. }
  rewrite D.
  cbn [bind]. rewrite !V. reflexivity.
Qed.

(** ** The handler as a whole *)
Lemma customer_done : forall data acts o, wf first -> wf last -> len first < 2^30 -> len last < 2^30 -> codec_encode customer_schema (customer first last) = Ret data ->
  customer_answers f64to32 pt text op_concat op_greeting data acts = [o] ->
  (forall a p0, stub_call strings_schema op_concat (strings first last) = Ret p0 -> In (0%nat, a) acts -> nth_error (customer_sends f64to32 pt text op_concat op_greeting data acts) 0 = Some p0 -> string_of a = first ++ str " " ++ last) ->
  (forall a p1, stub_call greeting_schema op_greeting (greeting (first ++ str " " ++ last)) = Ret p1 -> In (1%nat, a) acts -> nth_error (customer_sends f64to32 pt text op_concat op_greeting data acts) 1 = Some p1 -> string_of a = hello first last) ->
  exists enc, transform_encode (SStr (hello first last)) = Ret enc /\ o = inl (enc, []).
Proof.
  intros data acts o Wf Wl Lf Ll E A A0 A1. unfold customer_answers, customer_mono in A. unfold customer_sends in A0, A1. rewrite (customer_reads data Wf Wl Lf Ll E) in A, A0, A1.
  assert (P0 : exists p0, stub_call strings_schema op_concat (strings first last) = Ret p0). { unfold stub_call. rewrite (codec_bytes pt _ _ (strings_callable first last Wf Wl Lf Ll)). eexists. reflexivity. }
  destruct P0 as [p0 E0]. assert (Wn : wf (first ++ str " " ++ last)) by (apply wf_app; split; [exact Wf|]; apply wf_app; split; [apply wfb_wf; reflexivity|exact Wl]).
  assert (Ln : len (first ++ str " " ++ last) < 2^31 + 1) by (rewrite !len_app; change (len (str " ")) with 1; lia).
  assert (F := first_sent p0 acts E0).
  assert (N0 : forall a os, in_turn 2 0 acts = a :: os -> string_of a = first ++ str " " ++ last).
  { intros a os T. apply (A0 a p0 E0); [|exact F]. assert (X := in_turn_in 2 0 acts 0 a). rewrite T in X. exact (X eq_refl). }
  assert (G : forall a os, in_turn 2 0 acts = a :: os -> greets a).
  { intros a os T. unfold greets. rewrite (N0 a os T). unfold stub_call. rewrite (codec_bytes pt _ _ (greeting_callable _ Wn ltac:(lia))). eexists. reflexivity. }
  assert (S := stages p0 acts E0 G). remember (run acts) as s eqn:Qs. clear Qs. rewrite answers_outcome in A.
  destruct S as [T|o0 l0 p1 T E1|o0 l0 o1 l1 p1 T E1]; cbn [z_out outcome_of] in A; [discriminate A|discriminate A|].
  assert (S0 := N0 _ _ T). rewrite S0 in E1. assert (S1 : string_of o1 = hello first last).
  { apply (A1 o1 p1 E1); [|reflexivity]. assert (X := in_turn_in 2 0 acts 1 o1). rewrite T in X. exact (X eq_refl). }
  rewrite S1 in A. cbn [encode_value] in A. destruct (string_round (hello first last)) as (enc & E2 & _).
  - apply wf_app. split; [apply wfb_wf; reflexivity|exact Wn].
  - unfold hello. rewrite len_app. change (len (str "Hello, ")) with 7. lia.
  - rewrite E2 in A. exists enc. split; [exact E2|]. injection A as A. symmetry. exact A.
Qed.
End Run.

(** ** In the mesh *)
Section Mesh.
Context (f64to32 : N -> N) (pt : bytes -> option gtime) (text : rerr -> bytes) (op_concat op_greeting : N).
Context (L0 : op_concat < 2^32) (L1 : op_greeting < 2^32).
Context (m : mesh) (exported : nat -> ikind -> list (option handler)) (n : nat) (Ok : mesh_ok m exported n).
Notation reach := (customer_reach f64to32 pt text op_concat op_greeting m exported n).
Notation linked := (linked_to m exported).

Lemma reach_relay : forall r, reach r -> relay_reach m exported n r.
Proof. intros r R. induction R as [|r mv r' R IH A P D]; [constructor|]. exact (y_move _ _ _ _ _ _ IH A D). Qed.

(** The outcomes of the handlers. *)
Definition does (i : nat) (x : CallModel.run (destination + handler)) (o : pay + bytes) : Prop :=
  match r_handler x with
  | inr HConcat => wrapper_answers f64to32 pt text concat_service (r_sid x) (r_data x) = [o]
  | inr HGreeting => wrapper_answers f64to32 pt text greeting_service (r_sid x) (r_data x) = [o]
  | inr HCustomer => forall first last, short first -> short last -> codec_encode customer_schema (customer first last) = Ret (r_data x) ->
      linked i op_concat HConcat -> linked i op_greeting HGreeting -> exists enc, transform_encode (SStr (hello first last)) = Ret enc /\ o = inl (enc, [])
  | _ => True
  end.
Definition all_do (r : relay handler) : Prop :=
  forall i st x o, nth_error (y_nets r) i = Some st -> In x (p_runs (n_peer st Client)) -> r_out x = Some o -> does i x o.

(** A call by a guest through a link to [h] sees what a run of [h] with its data ended with. *)
Lemma linked_result : forall r i st c a op h, relay_reach m exported n r -> nth_error (y_nets r) i = Some st -> In c (p_calls (n_peer st Client)) -> In a (CallSpec.results c) ->
  op < 2^32 -> c_md c = stub_metadata op -> linked i op h ->
  CallSpec.results c = [a] /\ exists d sj x, nth_error (m_tabs m i RR) (N.to_nat op) = Some (Some d) /\ nth_error (y_nets r) (d_inst d) = Some sj /\ In x (p_runs (n_peer sj Client)) /\ r_handler x = inr h /\ r_data x = c_data c /\ r_out x = Some a.
Proof.
  intros r i st c a op h R N0 Hc Ha Lo Md (d & Ld & Lh).
  destruct (C65_outcome _ m exported n Ok r R i st c N0 Hc) as [Q|(o & Q & Rl)]; rewrite Q in Ha; [destruct Ha|]. destruct Ha as [<-|[]]. split; [exact Q|].
  assert (Lt : leads_to m i (c_md c) d). { rewrite Md. exact (proj2 (stub_names (m_tabs m i) op d Lo) Ld). }
  destruct Rl as [[No _]|(d' & Lt' & Rl)]; [contradiction (No d)|]. assert (d' = d) by (destruct Lt as [_ X], Lt' as [_ Y]; congruence). subst d'.
  destruct Rl as [[No _]|(sj & x & g & Nj & Hx & Hh & He & Hd & _ & Ho)]; [contradiction (No h)|].
  exists d, sj, x. split; [exact Ld|]. split; [exact Nj|]. split; [exact Hx|]. split; [rewrite Hh; congruence|]. split; [exact Hd|exact Ho].
Qed.

Lemma conclude_ends : forall i r st x o, relay_reach m exported n r -> all_do r -> nth_error (y_nets r) i = Some st -> ends_with f64to32 pt text op_concat op_greeting st x o -> does i x o.
Proof.
  intros i r st x o R I0 N0 E. unfold ends_with in E. unfold does. destruct (r_handler x) as [d|[| | |g]]; [exact E|exact E|exact E| |exact Logic.I].
  destruct E as (acts & A & S). intros first last [Wf Lf] [Wl Ll] Ec K0 K1.
  assert (Wn : wf (first ++ str " " ++ last)) by (apply wf_app; split; [exact Wf|]; apply wf_app; split; [apply wfb_wf; reflexivity|exact Wl]).
  assert (Ln : len (first ++ str " " ++ last) < 2^31 + 1) by (rewrite !len_app; change (len (str " ")) with 1; lia).
  apply (customer_done f64to32 pt text op_concat op_greeting first last (r_data x) acts o Wf Wl Lf Ll Ec A).
  - intros a p0 E0 Ha Hs. destruct (S _ _ Ha) as (c & Hc & Hn & Hr). rewrite Hn in Hs. unfold stub_call in E0. destruct (codec_encode strings_schema (strings first last)) as [data| |] eqn:Ed; [|discriminate E0..]. cbn [bind] in E0.
    assert (Q : (c_data c, c_md c) = (data, stub_metadata op_concat)) by congruence. assert (Qd := f_equal fst Q). assert (Qm := f_equal snd Q). cbn [fst snd] in Qd, Qm.
    destruct (linked_result r i st c a op_concat HConcat R N0 Hc Hr L0 Qm K0) as (_ & j & sj & y & _ & Nj & Hy & Hh & Hd & Ho).
    assert (D := I0 _ _ _ _ Nj Hy Ho). unfold does in D. rewrite Hh, Hd, Qd in D.
    destruct (concat_answers f64to32 pt text first last _ _ _ Wf Wl Lf Ll Ed D) as (enc & En & ->). destruct (string_round f64to32 pt (first ++ str " " ++ last) Wn ltac:(lia)) as (enc' & En' & De). assert (enc' = enc) by congruence. subst enc'.
    cbn [CustomerSpec.string_of]. rewrite De. reflexivity.
  - intros a p1 E1 Ha Hs. destruct (S _ _ Ha) as (c & Hc & Hn & Hr). rewrite Hn in Hs. unfold stub_call in E1. destruct (codec_encode greeting_schema (greeting (first ++ str " " ++ last))) as [data| |] eqn:Ed; [|discriminate E1..]. cbn [bind] in E1.
    assert (Q : (c_data c, c_md c) = (data, stub_metadata op_greeting)) by congruence. assert (Qd := f_equal fst Q). assert (Qm := f_equal snd Q). cbn [fst snd] in Qd, Qm.
    destruct (linked_result r i st c a op_greeting HGreeting R N0 Hc Hr L1 Qm K1) as (_ & j & sj & y & _ & Nj & Hy & Hh & Hd & Ho).
    assert (D := I0 _ _ _ _ Nj Hy Ho). unfold does in D. rewrite Hh, Hd, Qd in D.
    destruct (greeting_answers f64to32 pt text (first ++ str " " ++ last) _ _ _ Wn ltac:(lia) Ed D) as (enc & En & ->).
    destruct (string_round f64to32 pt (hello first last)) as (enc' & En' & De); [apply wf_app; split; [apply wfb_wf; reflexivity|exact Wn]|unfold hello; rewrite len_app; change (len (str "Hello, ")) with 7; lia|].
    unfold hello in *. assert (enc' = enc) by congruence. subst enc'. cbn [CustomerSpec.string_of]. rewrite De. reflexivity.
Qed.

(** Moves other than conclusions leave the outcomes alone. *)
Lemma moved_do : forall r i mv r', all_do r -> net_move m exported r i mv = Some r' ->
  (forall k o st x, mv = MConclude Client k o -> nth_error (y_nets r) i = Some st -> nth_error (p_runs (n_peer st Client)) k = Some x -> does i x o) -> all_do r'.
Proof.
  intros r i mv r' I0 E C. destruct (net_move_some m exported r i mv r' E) as (st & st' & N0 & D & ->). assert (M := do_moved _ _ _ _ _ D).
  intros j sj x o Nj Hx Ho. cbn [y_nets] in Nj. destruct (Nat.eq_dec j i) as [->|Ne]; [|rewrite put_other in Nj by exact Ne; exact (I0 _ _ _ _ Nj Hx Ho)].
  rewrite (put_same _ _ _ _ _ N0) in Nj. assert (sj = st') by congruence. subst sj. clear Nj. destruct (In_nth_error _ _ Hx) as [k Ek].
  destruct (moved_out _ _ _ _ _ _ _ M Ek Ho) as [Q|(y & Ey & Hy)].
  - destruct mv; try discriminate Q. injection Q as -> -> ->. destruct M as (_ & _ & l & h & sid & d & md & q & Hl & P & P').
    assert (X : nth_error (p_runs (n_peer st Client)) k = Some (mkRun h sid d md None)) by (rewrite P, nth_error_app2, Hl, Nat.sub_diag; [reflexivity|rewrite Hl; apply le_n]).
    assert (Y : x = mkRun h sid d md (Some o)) by (rewrite P', nth_error_app2, Hl, Nat.sub_diag in Ek; [cbn [nth_error] in Ek; congruence|rewrite Hl; apply le_n]).
    assert (Z := C k o st _ eq_refl N0 X). rewrite Y. exact Z.
  - assert (K := proj2 (moved_kept _ _ _ M) Client k y Ey). destruct K as (x' & Ex & Kh & Ks & Kd & _). assert (x' = x) by congruence. subst x'.
    assert (Z := I0 _ _ _ _ N0 (nth_error_In _ _ Ey) Hy). unfold does in *. rewrite Kh, Ks, Kd. exact Z.
Qed.

Lemma reach_do : forall r, reach r -> all_do r.
Proof.
  intros r R. induction R as [|r mv r' R IH A P D].
  - intros i st x o N0 Hx. unfold relay_create in N0. cbn [y_nets] in N0. apply nth_error_In, repeat_spec in N0. subst st. destruct Hx.
  - destruct mv as [i mv|i j|k].
    + assert (D' : net_move m exported r i mv = Some r') by (cbn [do_relay] in D; destruct (nth_error (y_nets r) i) as [st|]; [destruct (own_move st mv)|]; [exact D|discriminate D..]).
      apply (moved_do r i mv r' IH D'). intros k o st x -> N0 Ex. cbn [performs] in P. exact (conclude_ends i r st x o (reach_relay r R) IH N0 (P st x N0 Ex)).
    + destruct (forward_steps m exported r i j r' D) as (st & d & ik & sid & data & md & pa & q & md' & r1 & sd & r2 & r3 & _ & _ & _ & E1 & _ & E2 & E3 & ->).
      assert (I1 := moved_do _ _ _ _ IH E1 ltac:(discriminate)). assert (I2 := moved_do _ _ _ _ I1 E2 ltac:(discriminate)). exact (moved_do _ _ _ _ I2 E3 ltac:(discriminate)).
    + destruct (back_steps m exported r k r' D) as (l & sd & c & o & os & _ & _ & _ & _ & E). apply (moved_do _ _ _ _ IH E). discriminate.
Qed.
End Mesh.

(** ** What a caller sees *)
Lemma sees_string : forall f64to32 pt text c s enc, transform_encode (SStr s) = Ret enc -> wf s -> len s < 2^32 - 5 -> CallSpec.results c = [inl (enc, [])] -> user_sees f64to32 pt text KStr c = [inl (VResult (SStr s))].
Proof.
  intros f64to32 pt text c s enc E W L Q. unfold user_sees. rewrite Q. destruct (string_round f64to32 pt s W L) as (enc' & E' & D). assert (enc' = enc) by congruence. subst enc'.
  apply (C55_outcome zero_value (stub_reply f64to32 pt text KStr [inl (enc, [])]) (inl (VResult (SStr s)))). cbn [stub_reply map reply_call outcome_of decode_value]. rewrite D. reflexivity.
Qed.
Lemma sees_nothing : forall f64to32 pt text c, CallSpec.results c = [] -> user_sees f64to32 pt text KStr c = [].
Proof. intros f64to32 pt text c Q. unfold user_sees. rewrite Q. reflexivity. Qed.

Section Caller.
Context (f64to32 : N -> N) (pt : bytes -> option gtime) (text : rerr -> bytes) (op_concat op_greeting : N).
Context (L0 : op_concat < 2^32) (L1 : op_greeting < 2^32).
Context (m : mesh) (exported : nat -> ikind -> list (option handler)) (n : nat) (Ok : mesh_ok m exported n).

Lemma done_sees : forall r first last i st x c a, customer_reach f64to32 pt text op_concat op_greeting m exported n r -> short first -> short last ->
  nth_error (y_nets r) i = Some st -> In x (p_runs (n_peer st Client)) -> r_handler x = inr HCustomer -> r_out x = Some a -> codec_encode customer_schema (customer first last) = Ret (r_data x) ->
  linked_to m exported i op_concat HConcat -> linked_to m exported i op_greeting HGreeting -> CallSpec.results c = [a] -> user_sees f64to32 pt text KStr c = [inl (VResult (SStr (hello first last)))].
Proof.
  intros r first last i st x c a R Sf Sl N0 Hx Hh Ho Ec K0 K1 Q. assert (D := reach_do f64to32 pt text op_concat op_greeting L0 L1 m exported n Ok r R _ _ _ _ N0 Hx Ho). unfold does in D. rewrite Hh in D.
  destruct (D first last Sf Sl Ec K0 K1) as (enc & E & ->). destruct Sf as [Wf Lf], Sl as [Wl Ll].
  apply (sees_string f64to32 pt text c (hello first last) enc E); [| |exact Q].
  - unfold hello. repeat (apply wf_app; split); try assumption; apply wfb_wf; reflexivity.
  - unfold hello. rewrite !len_app. change (len (str " ")) with 1. change (len (str "Hello, ")) with 7. lia.
Qed.

Lemma app_result : forall r i st c a op h, relay_reach m exported n r -> nth_error (y_nets r) i = Some st -> In c (p_calls (n_peer st Server)) -> In a (CallSpec.results c) ->
  op < 2^32 -> c_md c = stub_metadata op -> nth_error (exported i RR) (N.to_nat op) = Some (Some h) ->
  CallSpec.results c = [a] /\ exists x, In x (p_runs (n_peer st Client)) /\ r_handler x = inr h /\ r_data x = c_data c /\ r_out x = Some a.
Proof.
  intros r i st c a op h R N0 Hc Ha Lo Md Lh. destruct (In_nth_error _ _ Hc) as [k Ek]. destruct (reach_yinv m exported n Ok r R) as (B & _ & _).
  destruct (C41_outcome _ _ _ (tables_few m exported n Ok i) st (yb_reach _ _ _ _ B _ _ N0) Server _ _ Ek) as [Q|(o & Q & O)]; rewrite Q in Ha; [destruct Ha|]. destruct Ha as [<-|[]]. split; [exact Q|].
  assert (Nm : names (relay_tbl m exported i Client) RR (c_md c) (inr h)).
  { rewrite Md. apply (stub_names (relay_tbl m exported i Client) op (inr h) Lo). cbn [relay_tbl]. rewrite nth_error_map, Lh. reflexivity. }
  destruct O as [(x & Hx & (_ & Hh & Hd & _) & Ho)|[No _]]; [|contradiction (No _ Nm)]. exists x. split; [exact Hx|]. split; [destruct Nm as [_ X], Hh as [_ Y]; cbn [other] in *; congruence|]. split; [exact Hd|exact Ho].
Qed.
End Caller.
