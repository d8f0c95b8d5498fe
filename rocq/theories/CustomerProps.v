(** C78: what the example modules of the mesh answer, alone and together. *)
From Coq Require Import Ascii String List NArith ZArith Lia Bool ZifyBool ZifyNat ZifyN.
From Verif Require Import Base BaseLemmas FramesModel FramesSpec OperationsModel InvokeModel InvokeSpec LookupModel StreamIdModel MonoModel MeshModel MeshSpec MeshProofs OutcomeModel OutcomeSpec OutcomeProofs OutcomeProps ProxyModel DispatchModel DispatchSpec.
From Verif Require Import CallModel CallSpec CallInv CallProofs CallProps RelayModel RelaySpec RelayProofs RelayProps.
From Verif Require Import MsgpackModel MsgpackSpec MsgpackClient MsgpackProofs TransformModel TransformSpec TransformProofs StubModel StubSpec StubProofs CustomerModel CustomerSpec CustomerProofs.
Import ListNotations.
Local Open Scope list_scope.
Open Scope N_scope.

(** ** Each module alone *)

(** concat answers the two strings with a space between them, greeting "Hello, " and the name, whatever they are. *)
Theorem C78_services : forall f64to32 pt text sid,
  (forall a b data, short a -> short b -> codec_encode strings_schema (strings a b) = Ret data ->
     exists enc, wrapper_answers f64to32 pt text concat_service sid data = [inl (enc, [])] /\ transform_decode f64to32 pt KStr enc = Ret (SStr (a ++ str " " ++ b))) /\
  (forall a data, wf a -> len a < 2^32 - 32 -> codec_encode greeting_schema (greeting a) = Ret data ->
     exists enc, wrapper_answers f64to32 pt text greeting_service sid data = [inl (enc, [])] /\ transform_decode f64to32 pt KStr enc = Ret (SStr (str "Hello, " ++ a))).
Proof.
  intros f64to32 pt text sid. split.
  - intros a b data [Wa La] [Wb Lb] E. destruct (string_round f64to32 pt (a ++ str " " ++ b)) as (enc & E1 & D).
    + apply wf_app. split; [exact Wa|]. apply wf_app. split; [apply wfb_wf; reflexivity|exact Wb].
    + rewrite !len_app. change (len (str " ")) with 1. lia.
    + exists enc. split; [|exact D]. unfold wrapper_answers.
      rewrite (wrapper_calls f64to32 pt text strings_schema (strings a b) concat_service sid data (strings_callable a b Wa Wb La Lb)); [|cbn [sv_schema concat_service]; repeat constructor; cbn; intuition discriminate|apply text_readable; repeat constructor|exact E].
      rewrite answers_outcome. change (seen strings_schema (strings a b) concat_service) with [VScal (SStr a); VScal (SStr b)]. cbn [sv_body concat_service map string_in outcome_of encode_value]. rewrite E1. reflexivity.
  - intros a data Wa La E. destruct (string_round f64to32 pt (str "Hello, " ++ a)) as (enc & E1 & D).
    + apply wf_app. split; [apply wfb_wf; reflexivity|exact Wa].
    + rewrite !len_app. change (len (str "Hello, ")) with 7. lia.
    + exists enc. split; [|exact D]. unfold wrapper_answers.
      rewrite (wrapper_calls f64to32 pt text greeting_schema (greeting a) greeting_service sid data (greeting_callable a Wa La)); [|cbn [sv_schema greeting_service]; repeat constructor; cbn; intuition discriminate|apply text_readable; repeat constructor|exact E].
      rewrite answers_outcome. change (seen greeting_schema (greeting a) greeting_service) with [VScal (SStr a)]. cbn [sv_body greeting_service map string_in outcome_of encode_value]. rewrite E1. reflexivity.
Qed.
Print Assumptions C78_services.

(** customer asks concat for the name, then, when that is answered, greeting for the message, and answers when that is answered: after any answers
    whatever, in any order, again and again.  What comes out of turn, or twice, has no effect. *)
Theorem C78_flow : forall f64to32 pt text op_concat op_greeting first last data acts, short first -> short last -> codec_encode customer_schema (customer first last) = Ret data ->
  (forall o, In o (in_turn 2 0 acts) -> wf (string_of f64to32 pt o) /\ len (string_of f64to32 pt o) < 2^32 - 32) ->
  let sends := customer_sends f64to32 pt text op_concat op_greeting data acts in
  let answers := customer_answers f64to32 pt text op_concat op_greeting data acts in
  exists name, codec_encode strings_schema (strings first last) = Ret name /\
  match in_turn 2 0 acts with
  | [] => sends = [(name, stub_metadata op_concat)] /\ answers = []
  | o0 :: os => exists hi, codec_encode greeting_schema (greeting (string_of f64to32 pt o0)) = Ret hi /\
      sends = [(name, stub_metadata op_concat); (hi, stub_metadata op_greeting)] /\
      match os with
      | [] => answers = []
      | o1 :: _ => exists enc, answers = [inl (enc, [])] /\ transform_decode f64to32 pt KStr enc = Ret (SStr (string_of f64to32 pt o1))
      end
  end.
Proof.
  intros f64to32 pt text op_concat op_greeting first last data acts [Wf Lf] [Wl Ll] E O. cbn zeta. unfold customer_sends, customer_answers, customer_mono. rewrite (customer_reads f64to32 pt op_concat first last data Wf Wl Lf Ll E).
  destruct (codec_encode strings_schema (strings first last)) as [name| |] eqn:E0; [|rewrite (codec_bytes pt _ _ (strings_callable first last Wf Wl Lf Ll)) in E0; discriminate E0..].
  assert (Es : stub_call strings_schema op_concat (strings first last) = Ret (name, stub_metadata op_concat)) by (unfold stub_call; rewrite E0; reflexivity).
  exists name. split; [reflexivity|].
  assert (S := stages f64to32 pt text op_concat op_greeting first last _ acts Es).
  assert (G : forall o os, in_turn 2 0 acts = o :: os -> greets f64to32 pt op_greeting o).
  { intros o os T. destruct (O o) as [W L]; [rewrite T; left; reflexivity|]. unfold greets, stub_call. rewrite (codec_bytes pt _ _ (greeting_callable _ W L)). eexists. reflexivity. }
  specialize (S G). remember (new_customer f64to32 pt text op_concat op_greeting first last acts) as s eqn:Qs. clear Qs. rewrite answers_outcome.
  assert (P : forall o p, stub_call greeting_schema op_greeting (greeting (string_of f64to32 pt o)) = Ret p -> exists hi, codec_encode greeting_schema (greeting (string_of f64to32 pt o)) = Ret hi /\ p = (hi, stub_metadata op_greeting)).
  { intros o p Ep. unfold stub_call in Ep. destruct (codec_encode greeting_schema _) as [hi| |]; [|discriminate Ep..]. cbn [bind] in Ep. exists hi. split; [reflexivity|congruence]. }
  destruct S as [T|o0 l0 p1 T E1|o0 l0 o1 l1 p1 T E1]; rewrite T in *; cbn [z_out z_sent outcome_of].
  - split; reflexivity.
  - destruct (P _ _ E1) as (hi & Eh & ->). exists hi. split; [exact Eh|]. split; reflexivity.
  - destruct (P _ _ E1) as (hi & Eh & ->). exists hi. split; [exact Eh|]. split; [reflexivity|]. destruct (O o1) as [W L]; [right; left; reflexivity|].
    destruct (string_round f64to32 pt _ W ltac:(lia)) as (enc & E2 & D). exists enc. split; [|exact D]. cbn [encode_value]. rewrite E2. reflexivity.
Qed.
Print Assumptions C78_flow.

(** Out of turn, in turn, twice, and too late. *)
Definition ok_string (s : string) : bytes := match transform_encode (SStr (str s)) with Ret d => d | _ => [] end.
Definition customer_data (first last : string) : bytes := match codec_encode customer_schema (customer (str first) (str last)) with Ret d => d | _ => [] end.
Definition nothing_rounds (x : N) : N := x.
Definition nothing_parses (l : bytes) : option gtime := None.
Definition no_text (x : rerr) : bytes := [].
Example C78_flow_ex :
  let acts := [(1%nat, inl (ok_string "early", [])); (0%nat, inl (ok_string "A B", [])); (0%nat, inr [9]); (1%nat, inl (ok_string "Hi", [])); (1%nat, inr [9])] in
  in_turn 2 0 acts = [inl (ok_string "A B", []); inl (ok_string "Hi", [])] /\
  customer_answers nothing_rounds nothing_parses no_text 0 1 (customer_data "A" "B") acts = [inl (ok_string "Hi", [])] /\
  map snd (customer_sends nothing_rounds nothing_parses no_text 0 1 (customer_data "A" "B") acts) = [stub_metadata 0; stub_metadata 1].
Proof. vm_compute. repeat split. Qed.

Example C78_services_ex : short (str "Ann") /\
  (forall data, codec_encode strings_schema (strings (str "Ann") (str "Lee")) = Ret data -> wrapper_answers nothing_rounds nothing_parses no_text concat_service 1 data = [inl (ok_string "Ann Lee", [])]).
Proof.
  split; [split; [apply wfb_wf; reflexivity|reflexivity]|]. intros data E. vm_compute in E. injection E as <-. vm_compute. reflexivity.
Qed.

(** A call that fails is taken for an empty string: the customer module never answers with an error, whatever the others answer. *)
Theorem C78_error_refuted :
  (exists acts, in_turn 2 0 acts = [inr (str "failed"); inl (ok_string "Hello, ", [])] /\
     customer_answers nothing_rounds nothing_parses no_text 0 1 (customer_data "A" "B") acts = [inl (ok_string "Hello, ", [])] /\
     nth_error (customer_sends nothing_rounds nothing_parses no_text 0 1 (customer_data "A" "B") acts) 1 = match codec_encode greeting_schema (greeting []) with Ret d => Some (d, stub_metadata 1) | _ => None end) /\
  (exists acts, in_turn 2 0 acts = [inl (ok_string "A B", []); inr (str "failed")] /\
     customer_answers nothing_rounds nothing_parses no_text 0 1 (customer_data "A" "B") acts = [inl (ok_string "", [])]).
Proof.
  split.
  - exists [(0%nat, inr (str "failed")); (1%nat, inl (ok_string "Hello, ", []))]. vm_compute. repeat split.
  - exists [(0%nat, inl (ok_string "A B", [])); (1%nat, inr (str "failed"))]. vm_compute. repeat split.
Qed.
Print Assumptions C78_error_refuted.

(** ** Together *)

(** At every moment of every execution of a mesh in which the customer module's imports are linked to concat and greeting: a call of customer by another
    module has seen nothing or "Hello, First Last"; when nothing is under way, and it has been subscribed, the latter. *)
Theorem C78_hello : forall f64to32 pt text op_concat op_greeting m exported n, op_concat < 2^32 -> op_greeting < 2^32 -> mesh_ok m exported n ->
  forall r, customer_reach f64to32 pt text op_concat op_greeting m exported n r ->
  forall i st c op d first last, nth_error (y_nets r) i = Some st -> In c (p_calls (n_peer st Client)) -> op < 2^32 -> short first -> short last ->
  stub_call customer_schema op (customer first last) = Ret (c_data c, c_md c) ->
  nth_error (m_tabs m i RR) (N.to_nat op) = Some (Some d) -> nth_error (exported (d_inst d) RR) (N.to_nat (d_index d)) = Some (Some HCustomer) ->
  linked_to m exported (d_inst d) op_concat HConcat -> linked_to m exported (d_inst d) op_greeting HGreeting ->
  (user_sees f64to32 pt text KStr c = [] \/ user_sees f64to32 pt text KStr c = [inl (VResult (SStr (hello first last)))]) /\
  (relay_rest r -> c_subscribed c = true -> user_sees f64to32 pt text KStr c = [inl (VResult (SStr (hello first last)))]).
Proof.
  intros f64to32 pt text op_concat op_greeting m exported n L0 L1 Ok r R i st c op d first last N0 Hc Lo Sf Sl Sc Ed Eh K0 K1.
  assert (Rr := reach_relay _ _ _ _ _ _ _ _ _ R). unfold stub_call in Sc. destruct (codec_encode customer_schema (customer first last)) as [data| |] eqn:Ec; [|discriminate Sc..]. cbn [bind] in Sc.
  assert (Q : (data, stub_metadata op) = (c_data c, c_md c)) by congruence. assert (Qd := f_equal fst Q). assert (Qm := f_equal snd Q). cbn [fst snd] in Qd, Qm. clear Sc Q.
  assert (Z : forall a, In a (CallSpec.results c) -> user_sees f64to32 pt text KStr c = [inl (VResult (SStr (hello first last)))]).
  { intros a Ha. assert (Lk : linked_to m exported i op HCustomer) by (exists d; split; assumption).
    destruct (linked_result m exported n Ok r i st c a op HCustomer Rr N0 Hc Ha Lo (eq_sym Qm) Lk) as (Qc & d' & sj & x & Ed' & Nj & Hx & Hh & Hd & Ho). assert (d' = d) by congruence. subst d'.
    refine (done_sees f64to32 pt text op_concat op_greeting L0 L1 m exported n Ok r first last (d_inst d) sj x c a R Sf Sl Nj Hx Hh Ho _ K0 K1 Qc). rewrite Hd, <- Qd. exact Ec. }
  split.
  - destruct (CallSpec.results c) as [|a l] eqn:Qc; [left; apply sees_nothing; exact Qc|right; apply (Z a); left; reflexivity].
  - intros Rt Su. assert (X := C65_at_rest _ m exported n Ok r Rr Rt i st c N0 Hc). rewrite Su in X. destruct X as (o & Qc & _). apply (Z o). rewrite Qc. left. reflexivity.
Qed.
Print Assumptions C78_hello.

(** The same for a call by the application that owns the mesh. *)
Theorem C78_hello_application : forall f64to32 pt text op_concat op_greeting m exported n, op_concat < 2^32 -> op_greeting < 2^32 -> mesh_ok m exported n ->
  forall r, customer_reach f64to32 pt text op_concat op_greeting m exported n r ->
  forall i st c op first last, nth_error (y_nets r) i = Some st -> In c (p_calls (n_peer st Server)) -> op < 2^32 -> short first -> short last ->
  stub_call customer_schema op (customer first last) = Ret (c_data c, c_md c) -> nth_error (exported i RR) (N.to_nat op) = Some (Some HCustomer) ->
  linked_to m exported i op_concat HConcat -> linked_to m exported i op_greeting HGreeting ->
  (user_sees f64to32 pt text KStr c = [] \/ user_sees f64to32 pt text KStr c = [inl (VResult (SStr (hello first last)))]) /\
  (relay_rest r -> c_subscribed c = true -> user_sees f64to32 pt text KStr c = [inl (VResult (SStr (hello first last)))]).
Proof.
  intros f64to32 pt text op_concat op_greeting m exported n L0 L1 Ok r R i st c op first last N0 Hc Lo Sf Sl Sc Eh K0 K1.
  assert (Rr := reach_relay _ _ _ _ _ _ _ _ _ R). unfold stub_call in Sc. destruct (codec_encode customer_schema (customer first last)) as [data| |] eqn:Ec; [|discriminate Sc..]. cbn [bind] in Sc.
  assert (Q : (data, stub_metadata op) = (c_data c, c_md c)) by congruence. assert (Qd := f_equal fst Q). assert (Qm := f_equal snd Q). cbn [fst snd] in Qd, Qm. clear Sc Q.
  assert (Z : forall a, In a (CallSpec.results c) -> user_sees f64to32 pt text KStr c = [inl (VResult (SStr (hello first last)))]).
  { intros a Ha. destruct (app_result m exported n Ok r i st c a op HCustomer Rr N0 Hc Ha Lo (eq_sym Qm) Eh) as (Qc & x & Hx & Hh & Hd & Ho).
    refine (done_sees f64to32 pt text op_concat op_greeting L0 L1 m exported n Ok r first last i st x c a R Sf Sl N0 Hx Hh Ho _ K0 K1 Qc). rewrite Hd, <- Qd. exact Ec. }
  split.
  - destruct (CallSpec.results c) as [|a l] eqn:Qc; [left; apply sees_nothing; exact Qc|right; apply (Z a); left; reflexivity].
  - intros Rt Su. destruct (reach_yinv m exported n Ok r Rr) as (B & _ & _). unfold relay_rest in Rt. rewrite Forall_forall in Rt.
    assert (X := C41_at_rest _ _ _ (tables_few m exported n Ok i) st (yb_reach _ _ _ _ B _ _ N0) (Rt st (nth_error_In _ _ N0)) Server c Hc). rewrite Su in X. destruct X as (o & Qc & _). apply (Z o). rewrite Qc. left. reflexivity.
Qed.
Print Assumptions C78_hello_application.

(** The three modules, and a fourth that calls customer. *)
Definition c_mods : list (list operation) :=
  [[mkOp 0 1 1 (str "concat.v1") (str "concat")]; [mkOp 0 1 1 (str "greeting.v1") (str "sayHello")];
   [mkOp 0 1 2 (str "concat.v1") (str "concat"); mkOp 1 1 2 (str "greeting.v1") (str "sayHello"); mkOp 0 1 1 (str "flow.v1") (str "flow")];
   [mkOp 0 1 2 (str "flow.v1") (str "flow")]].
Definition c_exported (i : nat) (k : ikind) : list (option handler) :=
  match i, k with O, RR => [Some HConcat] | S O, RR => [Some HGreeting] | S (S O), RR => [Some HCustomer] | _, _ => [] end.
Definition c_mesh : mesh := match load_all c_mods with Ret m => m | _ => new_mesh end.

(** Executions by computation: with each move the answers a customer handler has had. *)
Definition pay_dec (a b : pay + bytes) : {a = b} + {a <> b}.
Proof. repeat decide equality. Defined.
Definition payload_dec (a b : pay) : {a = b} + {a <> b}.
Proof. repeat decide equality. Defined.
Definition is_only (l : list (pay + bytes)) (o : pay + bytes) : bool := match l with [x] => if pay_dec x o then true else false | _ => false end.
Definition ok_ends (st : net (destination + handler)) (x : run (destination + handler)) (o : pay + bytes) (acts : list (nat * (pay + bytes))) : bool :=
  match r_handler x with
  | inr HConcat => is_only (wrapper_answers nothing_rounds nothing_parses no_text concat_service (r_sid x) (r_data x)) o
  | inr HGreeting => is_only (wrapper_answers nothing_rounds nothing_parses no_text greeting_service (r_sid x) (r_data x)) o
  | inr HCustomer => is_only (customer_answers nothing_rounds nothing_parses no_text 0 1 (r_data x) acts) o &&
      forallb (fun a => existsb (fun c => match nth_error (customer_sends nothing_rounds nothing_parses no_text 0 1 (r_data x) acts) (fst a) with
          | Some p => (if payload_dec p (c_data c, c_md c) then true else false) && existsb (fun b => if pay_dec b (snd a) then true else false) (CallSpec.results c) | None => false end) (p_calls (n_peer st Client))) acts
  | _ => true
  end.
Definition ok_performs (r : relay handler) (mv : rmove) (acts : list (nat * (pay + bytes))) : bool :=
  match mv with
  | RNet i (MConclude Client k o) => match nth_error (y_nets r) i with Some st => match nth_error (p_runs (n_peer st Client)) k with Some x => ok_ends st x o acts | None => false end | None => false end
  | _ => true
  end.
Fixpoint customer_runs (m : mesh) (r : relay handler) (ms : list (rmove * list (nat * (pay + bytes)))) : option (relay handler) :=
  match ms with
  | [] => Some r
  | (mv, acts) :: ms' => if ok_relay r mv && ok_performs r mv acts then match do_relay m c_exported r mv with Some r' => customer_runs m r' ms' | None => None end else None
  end.
Notation c_reach m := (customer_reach nothing_rounds nothing_parses no_text 0 1 m c_exported 4).
Lemma is_only_eq : forall l o, is_only l o = true -> l = [o].
Proof. intros [|x [|y l]] o E; [discriminate E| |discriminate E]. cbn [is_only] in E. destruct (pay_dec x o) as [->|]; [reflexivity|discriminate E]. Qed.
Lemma ok_performs_performs : forall r mv acts, ok_performs r mv acts = true -> performs nothing_rounds nothing_parses no_text 0 1 r mv.
Proof.
  intros r mv acts E. destruct mv as [i mv|i j|k]; try exact Logic.I. destruct mv as [| | | |s k o]; try exact Logic.I. destruct s; [|exact Logic.I]. cbn [ok_performs performs] in *. intros st x N0 Ex. rewrite N0, Ex in E.
  unfold ok_ends in E. unfold ends_with. destruct (r_handler x) as [d|[| | |g]]; try exact Logic.I; [exact (is_only_eq _ _ E)..|]. apply andb_true_iff in E as [E1 E2]. exists acts. split; [exact (is_only_eq _ _ E1)|].
  rewrite forallb_forall in E2. intros j a Ha. specialize (E2 _ Ha). apply existsb_exists in E2 as (c & Hc & E2). cbn [fst snd] in E2. destruct (nth_error _ j) as [p|] eqn:Q; [|discriminate E2]. apply andb_true_iff in E2 as [E2 E3].
  exists c. split; [exact Hc|]. destruct (payload_dec p (c_data c, c_md c)) as [->|]; [|discriminate E2]. split; [reflexivity|]. apply existsb_exists in E3 as (b & Hb & E3). destruct (pay_dec b a) as [->|]; [exact Hb|discriminate E3].
Qed.
Lemma customer_runs_reach : forall m ms r r', c_reach m r -> customer_runs m r ms = Some r' -> c_reach m r'.
Proof.
  induction ms as [|[mv acts] ms IH]; intros r r' R E; cbn [customer_runs] in E; [assert (r = r') by congruence; subst r'; exact R|].
  destruct (ok_relay r mv && ok_performs r mv acts) eqn:O; [|discriminate E]. apply andb_true_iff in O as [O1 O2]. destruct (do_relay m c_exported r mv) as [x|] eqn:D; [|discriminate E]. apply (IH x r'); [|exact E].
  exact (cr_move _ _ _ _ _ _ _ _ r mv x R (ok_relay_allowed _ _ _ O1) (ok_performs_performs _ _ _ O2) D).
Qed.

Definition concat_data (a b : string) : bytes := match codec_encode strings_schema (strings (str a) (str b)) with Ret d => d | _ => [] end.
Definition greeting_data (a : string) : bytes := match codec_encode greeting_schema (greeting (str a)) with Ret d => d | _ => [] end.
Definition c_run : list (rmove * list (nat * (pay + bytes))) :=
  map (fun mv => (mv, []))
    [RNet 3 (MCall Client (customer_data "Ann" "Lee") (stub_metadata 0)); RNet 3 (MSubscribe Client 0); RNet 3 (MReceive Server); RForward 3 0; RNet 2 (MReceive Client); RNet 2 (MTask Client 0);
     RNet 2 (MCall Client (concat_data "Ann" "Lee") (stub_metadata 0)); RNet 2 (MSubscribe Client 0); RNet 2 (MReceive Server); RForward 2 0; RNet 0 (MReceive Client); RNet 0 (MTask Client 0);
     RNet 0 (MConclude Client 0 (inl (ok_string "Ann Lee", []))); RNet 0 (MReceive Server); RBack 1; RNet 2 (MReceive Client);
     RNet 2 (MCall Client (greeting_data "Ann Lee") (stub_metadata 1)); RNet 2 (MSubscribe Client 1); RNet 2 (MReceive Server); RForward 2 0; RNet 1 (MReceive Client); RNet 1 (MTask Client 0);
     RNet 1 (MConclude Client 0 (inl (ok_string "Hello, Ann Lee", []))); RNet 1 (MReceive Server); RBack 2; RNet 2 (MReceive Client)] ++
  [(RNet 2 (MConclude Client 0 (inl (ok_string "Hello, Ann Lee", []))), [(0%nat, inl (ok_string "Ann Lee", [])); (1%nat, inl (ok_string "Hello, Ann Lee", []))])] ++
  map (fun mv => (mv, [])) [RNet 2 (MReceive Server); RBack 0; RNet 3 (MReceive Client)].
Example C78_hello_ex : load_all c_mods = Ret c_mesh /\ mesh_ok c_mesh c_exported 4 /\ linked_to c_mesh c_exported 2 0 HConcat /\ linked_to c_mesh c_exported 2 1 HGreeting /\ linked_to c_mesh c_exported 3 0 HCustomer /\
  exists r, c_reach c_mesh r /\ relay_rest r /\
  map (fun st => map (user_sees nothing_rounds nothing_parses no_text KStr) (p_calls (n_peer st Client))) (y_nets r) =
    [[]; []; [[inl (VResult (SStr (str "Ann Lee")))]; [inl (VResult (SStr (str "Hello, Ann Lee")))]]; [[inl (VResult (SStr (hello (str "Ann") (str "Lee"))))]]].
Proof.
  split; [reflexivity|]. split.
  { apply (loaded_ok handler c_exported c_mods c_mesh); [repeat constructor; cbn; intuition discriminate| |intros [|[|[|i]]] [| | |]; reflexivity|reflexivity].
    intros t o Ht Ho. cbn [c_mods In] in Ht. repeat (destruct Ht as [<-|Ht]; [repeat (destruct Ho as [<-|Ho]; [reflexivity|]); destruct Ho|]). destruct Ht. }
  split; [eexists; split; vm_compute; reflexivity|]. split; [eexists; split; vm_compute; reflexivity|]. split; [eexists; split; vm_compute; reflexivity|].
  destruct (customer_runs c_mesh (relay_create 4) c_run) as [r|] eqn:X; [|vm_compute in X; discriminate X]. exists r. split; [exact (customer_runs_reach _ _ _ _ (cr_init _ _ _ _ _ _ _ _) X)|].
  assert (Y : match customer_runs c_mesh (relay_create 4) c_run with Some r => map (fun st => map (user_sees nothing_rounds nothing_parses no_text KStr) (p_calls (n_peer st Client))) (y_nets r) | None => [] end =
    [[]; []; [[inl (VResult (SStr (str "Ann Lee")))]; [inl (VResult (SStr (str "Hello, Ann Lee")))]]; [[inl (VResult (SStr (hello (str "Ann") (str "Lee"))))]]]) by (vm_compute; reflexivity).
  assert (Z : match customer_runs c_mesh (relay_create 4) c_run with Some r => forallb (fun st => forallb (fun s =>
     match n_wire st s, p_tasks (n_peer st s) with [], [] => forallb (fun x => match r_out x with None => false | _ => true end) (p_runs (n_peer st s)) | _, _ => false end) [Client; Server]) (y_nets r) | None => false end = true) by (vm_compute; reflexivity).
  rewrite X in Y, Z. split; [|exact Y]. clear X Y. apply Forall_forall. intros st Hs. rewrite forallb_forall in Z. specialize (Z st Hs). cbn [forallb] in Z. rewrite !andb_true_iff in Z. destruct Z as (Z1 & Z2 & _).
  assert (W : forall s, match n_wire st s, p_tasks (n_peer st s) with [], [] => forallb (fun x => match r_out x with None => false | _ => true end) (p_runs (n_peer st s)) | _, _ => false end = true) by (intros [|]; assumption). clear Z1 Z2.
  intro s. specialize (W s). destruct (n_wire st s); [|discriminate W]. destruct (p_tasks (n_peer st s)); [|discriminate W]. split; [reflexivity|]. split; [reflexivity|]. apply Forall_forall. intros x Hx. rewrite forallb_forall in W. specialize (W x Hx). destruct (r_out x); [discriminate|discriminate W].
Qed.
