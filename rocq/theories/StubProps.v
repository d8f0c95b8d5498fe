(** C61: calls through generated clients and wrappers. *)
From Coq Require Import List NArith ZArith Bool Lia.
From Coq Require Import ZifyBool ZifyNat ZifyN.
From Verif Require Import Base BaseLemmas OutcomeModel OutcomeSpec FramesModel FramesSpec OperationsModel InvokeModel InvokeSpec InvokeProps LookupModel StreamIdModel MonoModel ProxyModel DispatchModel DispatchSpec CallModel CallSpec CallInv CallProofs CallProps
  MsgpackModel MsgpackSpec MsgpackClient MsgpackProps TransformModel TransformSpec TransformProofs TransformProps StubModel StubSpec StubProofs.
Import ListNotations.
Open Scope N_scope.

(** ** What the user of a client sees *)

(** At every moment of every execution, whatever other calls are under way in both directions: the user of a generated client has seen nothing of a call, or
    exactly one thing, which is the outcome - value or error - of the service's method on the arguments the user gave. *)
Theorem C61_result : forall H (w : side -> site) (tbl : side -> ikind -> list (option H)) f64to32 pt text svc, (forall s, DispatchSpec.few (tbl s)) ->
  forall st, stub_reach w tbl f64to32 pt text svc st ->
  forall s i c sc op e h k, nth_error (p_calls (n_peer st s)) i = Some c -> stub_call sc op e = Ret (c_data c, c_md c) -> op < 2^32 ->
  nth_error (tbl (other s) RR) (N.to_nat op) = Some (Some h) -> callable sc e -> NoDup (map fst (sv_schema (svc h))) -> readable sc e (sv_schema (svc h)) -> returns (svc h) k ->
  user_sees f64to32 pt text k c = [] \/
  exists x, outcome_of (sv_body (svc h) (c_sid c) (seen sc e (svc h))) = Some x /\ user_sees f64to32 pt text k c = [x].
Proof.
  intros H w tbl f64to32 pt text svc F st R s i c sc op e h k E Sc L Hn C ND Rd Rt. unfold user_sees.
  destruct (C41_outcome H w tbl F st (proj1 (stub_runs w tbl f64to32 pt text svc st R)) s i c E) as [->|(o & -> & O)]; [left; reflexivity|right].
  exact (stub_run w tbl f64to32 pt text svc st s c o sc op e h k R O Sc L Hn C ND Rd Rt).
Qed.
Print Assumptions C61_result.

(** When nothing is under way the user who has subscribed has seen it. *)
Theorem C61_at_rest : forall H (w : side -> site) (tbl : side -> ikind -> list (option H)) f64to32 pt text svc, (forall s, DispatchSpec.few (tbl s)) ->
  forall st, stub_reach w tbl f64to32 pt text svc st -> at_rest st ->
  forall s c sc op e h k, In c (p_calls (n_peer st s)) -> stub_call sc op e = Ret (c_data c, c_md c) -> op < 2^32 ->
  nth_error (tbl (other s) RR) (N.to_nat op) = Some (Some h) -> callable sc e -> NoDup (map fst (sv_schema (svc h))) -> readable sc e (sv_schema (svc h)) -> returns (svc h) k ->
  if c_subscribed c then exists x, outcome_of (sv_body (svc h) (c_sid c) (seen sc e (svc h))) = Some x /\ user_sees f64to32 pt text k c = [x] else user_sees f64to32 pt text k c = [].
Proof.
  intros H w tbl f64to32 pt text svc F st R A s c sc op e h k E Sc L Hn C ND Rd Rt. unfold user_sees.
  assert (X := C41_at_rest H w tbl F st (proj1 (stub_runs w tbl f64to32 pt text svc st R)) A s c E). destruct (c_subscribed c); [|rewrite X; reflexivity].
  destruct X as (o & -> & O). exact (stub_run w tbl f64to32 pt text svc st s c o sc op e h k R O Sc L Hn C ND Rd Rt).
Qed.
Print Assumptions C61_at_rest.

(** A call whose number has no handler ends with the error that says so; one whose arguments the service cannot decode ends with the decoder's error, and
    the service is not asked. *)
Theorem C61_errors : forall H (w : side -> site) (tbl : side -> ikind -> list (option H)) f64to32 pt text svc, (forall s, DispatchSpec.few (tbl s)) ->
  forall st, stub_reach w tbl f64to32 pt text svc st ->
  forall s i c op k, nth_error (p_calls (n_peer st s)) i = Some c -> c_md c = stub_metadata op -> op < 2^32 ->
  ((forall h, nth_error (tbl (other s) RR) (N.to_nat op) <> Some (Some h)) -> user_sees f64to32 pt text k c = [] \/ user_sees f64to32 pt text k c = [inr not_found]) /\
  (forall h x, nth_error (tbl (other s) RR) (N.to_nat op) = Some (Some h) ->
    codec_decode f64to32 pt (sv_schema (svc h)) (S (length (c_data c))) (sv_zero (svc h)) (c_data c) = Fail x ->
    user_sees f64to32 pt text k c = [] \/ user_sees f64to32 pt text k c = [inr (text x)]).
Proof.
  intros H w tbl f64to32 pt text svc F st R s i c op k E Md L. unfold user_sees. destruct (stub_runs w tbl f64to32 pt text svc st R) as [N0 Rn].
  destruct (C41_outcome H w tbl F st N0 s i c E) as [->|(o & -> & O)]; [split; left; reflexivity|]. unfold outcome_for in O. rewrite Md in O. split.
  - intro No. right. destruct O as [(r & _ & (_ & Rh & _) & _)|[_ ->]].
    + rewrite Md in Rh. apply stub_names in Rh; [|exact L]. contradiction (No _ Rh).
    + rewrite stub_metadata_len. reflexivity.
  - intros h x Hn D. right. assert (Nm := proj2 (stub_names (tbl (other s)) op h L) Hn). destruct O as [(r & Hr & (Rs & Rh & Rd & _) & Ro)|[No _]]; [|contradiction (No h)].
    assert (Qh : r_handler r = h) by (rewrite Md in Rh; destruct Nm as [_ X]; destruct Rh as [_ Y]; congruence).
    assert (X := Rn _ r Hr o Ro). rewrite Qh, Rs, Rd in X. unfold wrapper_answers, wrapper in X. rewrite D in X. injection X as <-. reflexivity.
Qed.
Print Assumptions C61_errors.

(** ** Clients and services of different versions *)

(** A record written by a client is read by a service with other fields in another order: fields both have keep their values, those the client lacks keep the
    value they had, those the service lacks are ignored. *)
Theorem C61_fields : forall f64to32 pt sc sc' e e0, callable sc e -> NoDup (map fst sc') -> readable sc e sc' ->
  exists data e', codec_encode sc e = Ret data /\ codec_decode f64to32 pt sc' (S (length data)) e0 data = Ret e' /\
  forall n, e' n = if in_dec (list_eq_dec N.eq_dec) n (map fst sc) then if in_dec (list_eq_dec N.eq_dec) n (map fst sc') then e n else e0 n else e0 n.
Proof.
  intros f64to32 pt sc sc' e e0 C ND Rd. eexists.
  edestruct (evolve f64to32 pt sc sc' e e0) as (e' & D & V); [exact C|exact ND|exact Rd| |exists e'; split; [apply (codec_bytes pt), C|split; [exact D|exact V]]].
  rewrite app_length. apply le_S, Nat.le_add_r.
Qed.
Print Assumptions C61_fields.

(** But a client may not add a time field: a service that does not know it cannot skip a time before 1970 (or after 2514), and refuses the call. *)
Definition birth : schema := [([110], FScal KStr); ([98], FScal KTime)].
Definition in_1969 : env := fun n => if bytes_equal n [98] then VScal (STime (mkTime (-1) 0)) else VScal (SStr [65]).
Theorem C61_time_field_refuted : ~ forall sc e sc' e0, callable sc e -> NoDup (map fst sc') -> (forall n k k', In (n, k) sc -> In (n, k') sc' -> k' = k) ->
  exists data e', codec_encode sc e = Ret data /\ codec_decode no_round no_parse sc' (S (length data)) e0 data = Ret e'.
Proof.
  intro X. destruct (X birth in_1969 [([110], FScal KStr)] (fun _ => VOpt None)) as (data & e' & E & D).
  - split; [|split].
    + split; [repeat constructor; cbn; intuition discriminate|]. split; [reflexivity|]. apply Forall_cons; [|apply Forall_cons; [|apply Forall_nil]]; (split; [reflexivity|apply wfb_wf; reflexivity]).
    + apply Forall_cons; [|apply Forall_cons; [|apply Forall_nil]]; (split; [reflexivity|]); vm_compute; repeat split; try discriminate; repeat constructor.
    + vm_compute. reflexivity.
  - repeat constructor. cbn. tauto.
  - intros n k k' [A|[A|[]]] [B|[]]; congruence.
  - vm_compute in E. injection E as <-. vm_compute in D. discriminate D.
Qed.
Print Assumptions C61_time_field_refuted.

(** ** Numbers of operations *)

(** The number a client's import returned names the service's handler if the service exports what the client imports, in that order (and perhaps more behind). *)
Theorem C61_numbers : forall H (hc hs : list (icall H)) k x more, InvokeSpec.few hc -> InvokeSpec.few hs -> In x (imported k hc) ->
  map fst (exported k hs) = firsts (imported k hc) ++ more ->
  exists f, In (x, f) (exported k hs) /\ get_handler k (irun hs) (index_of hc k x) = Ret f.
Proof.
  intros H hc hs k x more Fc Fs I0 Q. assert (P := C32_position hc k x Fc I0). rewrite (C33_lookup hs k _ Fs).
  assert (Y : nth_error (map fst (exported k hs)) (N.to_nat (index_of hc k x)) = Some x).
  { rewrite Q, nth_error_app1; [exact P|]. apply nth_error_Some. rewrite P. discriminate. }
  rewrite nth_error_map in Y. destruct (nth_error (exported k hs) (N.to_nat (index_of hc k x))) as [[y f]|] eqn:E; [|discriminate Y]. cbn [option_map fst] in Y. injection Y as <-.
  exists f. split; [exact (nth_error_In _ _ E)|reflexivity].
Qed.
Print Assumptions C61_numbers.
(** Otherwise it may name another: nothing in a call says which operation it means. *)
Theorem C61_numbers_refuted : ~ forall (hc hs : list (icall nat)) k x f, InvokeSpec.few hc -> InvokeSpec.few hs -> In x (imported k hc) ->
  get_handler k (irun hs) (index_of hc k x) = Ret (Some f) -> In (x, Some f) (exported k hs).
Proof.
  intro X. specialize (X [IImport RR [7] [2]] [IExport RR [7] [1] (Some 10%nat); IExport RR [7] [2] (Some 20%nat)] RR ([7], [2]) 10%nat eq_refl eq_refl (or_introl eq_refl) eq_refl).
  vm_compute in X. destruct X as [X|[X|[]]]; discriminate X.
Qed.
Print Assumptions C61_numbers_refuted.

(** ** An execution *)

(** Two services: a greeter of three fields, and one that fails.  The client knows two of the fields, in another order, and one that the service does not know. *)
Definition greet (l : list fval) : stub_mono :=
  match l with
  | [VScal (SStr first); VScal (SStr last); VOpt title] => Just (VResult (SStr (match title with Some (SStr t) => t | _ => [] end ++ first ++ [32] ++ last)))
  | _ => MError [33]
  end.
Definition ex_services (h : N) : service :=
  match h with
  | 0 => mkService [([102], FScal KStr); ([108], FScal KStr); ([116], FOpt KStr)] (fun n => if bytes_equal n [116] then VOpt None else VScal (SStr [])) (fun _ l => greet l)
  | _ => mkService [] (fun _ => VOpt None) (fun sid _ => Created None [KError [70; sid]; KSuccess (VResult (SStr []))])
  end.
Definition ex_stub_tbl (s : side) (k : ikind) : list (option N) := match s, k with Server, RR => [Some 1; Some 0] | _, _ => [] end.
Definition ex_text (x : rerr) : bytes := [69].
Definition ex_args_schema : schema := [([97], FScal KI32); ([108], FScal KStr); ([102], FScal KStr)].
Definition ex_args : env := fun n => if bytes_equal n [97] then VScal (SI32 42) else if bytes_equal n [108] then VScal (SStr [76; 76]) else VScal (SStr [70]).
Definition call_of (sc : schema) (op : N) (e : env) : move := match stub_call sc op e with Ret (data, md) => MCall Client data md | _ => MReceive Client end.

(** Moves, where the wrappers say how runs conclude. *)
Definition answered_by (st : net N) (m : move) : option move :=
  match m with
  | MConclude s i _ =>
    match nth_error (p_runs (n_peer st s)) i with
    | Some r => match wrapper_answers no_round no_parse ex_text (ex_services (r_handler r)) (r_sid r) (r_data r) with [o] => Some (MConclude s i o) | _ => None end
    | None => None
    end
  | _ => Some m
  end.
Fixpoint stub_moves (st : net N) (ms : list move) : option (net N) :=
  match ms with
  | [] => Some st
  | m :: ms' =>
    match answered_by st m with
    | Some m => if ok_move st m then match do_move (fun _ => Peer) ex_stub_tbl st m with Some st' => stub_moves st' ms' | None => None end else None
    | None => None
    end
  end.
Lemma ok_allowed : forall st m, ok_move st m = true -> allowed st m.
Proof.
  intros st m O. destruct m as [s data md|s k|s|s i|s i [[data md]|msg]]; cbn [ok_move allowed] in *; try exact Logic.I.
  - apply andb_prop in O as [O L]. apply andb_prop in O as [O F]. apply andb_prop in O as [W L']. split; [|apply N.ltb_lt; exact L]. split; [apply wfb_wf; exact W|]. split; [apply N.ltb_lt; exact L'|apply N.ltb_lt; exact F].
  - intros c E. rewrite E in O. destruct (c_subscribed c); [discriminate O|reflexivity].
  - apply andb_prop in O as [A B]. split; apply N.ltb_lt; assumption.
  - apply N.ltb_lt. exact O.
Qed.
Lemma stub_moves_reach : forall ms st st', stub_reach (fun _ => Peer) ex_stub_tbl no_round no_parse ex_text ex_services st -> stub_moves st ms = Some st' ->
  stub_reach (fun _ => Peer) ex_stub_tbl no_round no_parse ex_text ex_services st'.
Proof.
  induction ms as [|m0 ms IH]; intros st st' R E; cbn [stub_moves] in E; [congruence|]. destruct (answered_by st m0) as [m|] eqn:A; [|discriminate E].
  destruct (ok_move st m) eqn:O; [|discriminate E]. destruct (do_move (fun _ => Peer) ex_stub_tbl st m) as [x|] eqn:D; [|discriminate E]. apply (IH x st'); [|exact E].
  apply (s_move _ _ _ _ _ _ st m x R); [apply ok_allowed, O| |exact D]. clear - A. destruct m0 as [s data md|s k|s|s i|s i o]; cbn [answered_by] in A; try (injection A as <-; exact Logic.I).
  destruct (nth_error (p_runs (n_peer st s)) i) as [r|] eqn:N0; [|discriminate A]. destruct (wrapper_answers no_round no_parse ex_text (ex_services (r_handler r)) (r_sid r) (r_data r)) as [|o' [|]] eqn:Q; try discriminate A.
  injection A as <-. intros r' E. assert (r = r') by congruence. subst r'. exact Q.
Qed.

(** Four calls: of the greeter, of the failing service, of no service, and of the greeter with arguments it does not understand. *)
Example C61_ex : exists st, stub_reach (fun _ => Peer) ex_stub_tbl no_round no_parse ex_text ex_services st /\ at_rest st /\
  map (user_sees no_round no_parse ex_text KStr) (p_calls (n_peer st Client)) = [[inl (VResult (SStr [70; 32; 76; 76]))]; [inr [70; 3]]; [inr not_found]; [inr [69]]; []] /\
  callable ex_args_schema ex_args /\ readable ex_args_schema ex_args (sv_schema (ex_services 0)) /\ returns (ex_services 1) KStr /\
  seen ex_args_schema ex_args (ex_services 0) = [VScal (SStr [70]); VScal (SStr [76; 76]); VOpt None].
Proof.
  set (ms := [call_of ex_args_schema 1 ex_args; call_of [] 0 ex_args; call_of [] 5 ex_args; MCall Client [0x91] (stub_metadata 1); call_of [] 0 ex_args;
    MSubscribe Client 0; MSubscribe Client 1; MSubscribe Client 2; MSubscribe Client 3; MReceive Server; MReceive Server; MReceive Server; MReceive Server;
    MTask Server 1; MTask Server 0; MTask Server 0; MTask Server 0; MConclude Server 0 (inr []); MConclude Server 1 (inr []); MConclude Server 2 (inr []);
    MReceive Client; MReceive Client; MReceive Client; MReceive Client]).
  destruct (stub_moves net_create ms) as [st|] eqn:X; [|vm_compute in X; discriminate X]. assert (R := stub_moves_reach _ _ _ (s_init _ _ _ _ _ _) X). exists st. split; [exact R|]. vm_compute in X. injection X as <-. split; [|split].
  - intros [|]; vm_compute; (split; [reflexivity|]; split; [reflexivity|]); repeat constructor; discriminate.
  - vm_compute. reflexivity.
  - split; [|split; [|split]].
    + split; [|split].
      * split; [repeat constructor; cbn; intuition discriminate|]. split; [reflexivity|]. repeat apply Forall_cons; try apply Forall_nil; (split; [reflexivity|apply wfb_wf; reflexivity]).
      * repeat apply Forall_cons; try apply Forall_nil; (split; [reflexivity|]); cbn; try lia; (split; [reflexivity|apply wfb_wf; reflexivity]).
      * vm_compute. reflexivity.
    + intros n k I0. cbn in I0. split.
      * intros k' J. cbn in J. repeat (destruct I0 as [I0|I0]; [|]); repeat (destruct J as [J|J]; [|]); try contradiction; congruence.
      * intros _. repeat (destruct I0 as [I0|I0]; [injection I0 as <- <-; exact Logic.I|]). contradiction.
    + intros sid args x E. discriminate E.
    + vm_compute. reflexivity.
Qed.
