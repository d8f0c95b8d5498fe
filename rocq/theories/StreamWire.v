(** What the dispatchers make of the frames of a stream and of other streams. *)
From Coq Require Import List NArith ZArith Lia Bool ZifyBool ZifyNat ZifyN.
From Verif Require Import Base BaseLemmas FramesModel FramesSpec FramesProofs InvokeModel InvokeProofs MonoModel FluxModel FluxSpec ProxyModel ProxySpec DispatchModel DispatchSpec DispatchProofs ResponderModel ResponderSpec.
From Verif Require Import StreamModel StreamSpec StreamSides.
From Verif Require CallSpec.
Import ListNotations.
Open Scope N_scope.

Section Wire.
Context {H : Type}.
Context (sid : N) (data md : bytes).
Context (Sid : sid < 2^31) (Snd : CallSpec.sendable data md).
Notation req := (stream_request sid data md).
Notation act := (act H unit).
Notation received := (@received H sid).
Notation own := (@own H sid).

Definition good (f : frame) : Prop := frame_in_range f /\ len (frame_metadata f) < 2^24 /\ frame_sid f = sid.

Lemma u32z_range : forall z, u32z z < 2^32.
Proof. intro z. unfold u32z. change (2^32) with 4294967296. assert (0 <= z mod 4294967296 < 4294967296)%Z by (apply Z.mod_pos_bound; lia). lia. Qed.
Lemma up_good : forall f, up_frame sid data md f -> good f.
Proof.
  destruct Snd as (_ & L & F). intros f U. destruct U as [[n E]|[[n E]|E]]; subst f.
  - split; [|split; [exact L|reflexivity]]. cbn [with_n frame_in_range rf_stream_id rf_type rf_initial_n rf_metadata rf_data stream_request]. change FrameTypeRequestStream with 6. split; [exact Sid|]. split; [lia|]. split; [apply u32z_range|exact F].
  - split; [split; [exact Sid|apply u32z_range]|]. split; reflexivity.
  - split; [exact Sid|]. split; reflexivity.
Qed.
Lemma owed_good : forall c, sendable_call c -> Forall (fun f => good f /\ is_answer f = true) (owed sid c).
Proof.
  intros c F. destruct c; try match goal with v : pay |- _ => destruct v as [d m] end; cbn [owed sendable_call] in *; try apply Forall_nil; (constructor; [|apply Forall_nil]); (split; [|reflexivity]).
  - destruct F as [L F]. split; [split; [exact Sid|exact F]|]. split; [exact L|reflexivity].
  - split; [split; [exact Sid|reflexivity]|]. split; reflexivity.
  - split; [split; [exact Sid|]; split; [reflexivity|exact F]|]. split; reflexivity.
Qed.
Lemma answer_good : forall l, Forall sendable_call l -> Forall (fun f => good f /\ is_answer f = true) (answer sid l).
Proof.
  intros l F. unfold answer. induction F as [|c l Fc Fl IH]; [constructor|]. cbn [upto]. destruct (closes c); cbn [flat_map].
  - rewrite app_nil_r. apply owed_good. exact Fc.
  - apply Forall_app. split; [apply owed_good; exact Fc|exact IH].
Qed.

Definition refusal : frame := FramesModel.FError sid 0 (if len md <? 8 then invalid_metadata else not_found).
Lemma refusal_good : good refusal /\ is_answer refusal = true.
Proof. unfold refusal. split; [|reflexivity]. split; [|split; reflexivity]. split; [exact Sid|]. split; [reflexivity|]. destruct (len md <? 8); reflexivity. Qed.

Lemma posts_good : forall fs w, Forall good fs -> posts w fs = Some (w ++ map wire fs).
Proof.
  induction fs as [|f fs IH]; intros w F; [cbn; rewrite app_nil_r; reflexivity|]. inversion F as [|? ? Hf Hfs]; subst. cbn [posts map]. rewrite (frame_bytes_wire f (proj1 Hf)), (IH _ Hfs), <- app_assoc. reflexivity.
Qed.

(** ** Other streams *)
Lemma handle_ids : forall tbl get w k i d m n l, @handle H unit tbl get w k i d m n = Ret l -> i <> sid -> filter own l = [].
Proof.
  intros tbl get w k i d m n l X N. unfold DispatchModel.handle in X. assert (E : (i =? sid) = false) by (apply N.eqb_neq; exact N).
  destruct (len m <? 8).
  - injection X as <-. cbn [filter]. unfold StreamModel.own. cbn [frame_sid]. rewrite E. reflexivity.
  - destruct (get_be 4 m) as [op|e|]; cbn [bind] in X; try discriminate X.
    match type of X with bind ?q _ = _ => destruct q as [parent|e|] end; cbn [bind] in X; try discriminate X.
    destruct (get_from (tbl k) op) as [[h|]|e|]; try discriminate X.
    + match type of X with bind ?q _ = _ => destruct q as [md'|e|] end; cbn [bind] in X; try discriminate X. injection X as <-. destruct (registers w k); cbn [filter app]; unfold StreamModel.own; rewrite ?E; reflexivity.
    + injection X as <-. cbn [filter]. unfold StreamModel.own. cbn [frame_sid]. rewrite E. reflexivity.
Qed.
Lemma look_other : forall reg i, i <> sid -> look sid reg i = None.
Proof. intros reg i N. unfold look. apply N.eqb_neq in N. rewrite N, andb_false_r. reflexivity. Qed.
Lemma look_own : forall reg, look sid reg sid = if reg then Some tt else None.
Proof. intros reg. unfold look. rewrite N.eqb_refl, andb_true_r. reflexivity. Qed.

Lemma recv_foreign : forall w tbl reg bs l, foreign sid bs -> received w tbl reg bs = Ret l -> filter own l = [].
Proof.
  intros w tbl reg bs l (f & P & N) X. destruct (is_request f) eqn:R.
  - destruct f as [| | | |r]; try discriminate R. cbn [frame_sid] in N. destruct w; cbn [StreamModel.received] in X.
    + rewrite P in X. destruct (parse_form bs _ P) as (_ & _ & _ & k & K). unfold HandleFrame in X. cbn [frame_type] in X. rewrite K in X. replace (FrameTypeRequestN <=? request_type k) with false in X by (destruct k; reflexivity).
      rewrite kind_of_type in X. exact (handle_ids _ _ _ _ _ _ _ _ _ X N).
    + destruct (recv_request tbl (look sid reg) any_kind Host bs r P) as (k & _ & E). rewrite E in X. destruct (rf_follows r); [|exact (handle_ids _ _ _ _ _ _ _ _ _ X N)]. injection X as <-. cbn [filter]. unfold StreamModel.own. apply N.eqb_neq in N. rewrite N. reflexivity.
    + destruct (recv_request tbl (look sid reg) any_kind Guest bs r P) as (k & _ & E). rewrite E in X. destruct (rf_follows r); [|exact (handle_ids _ _ _ _ _ _ _ _ _ X N)]. injection X as <-. cbn [filter]. unfold StreamModel.own. apply N.eqb_neq in N. rewrite N. reflexivity.
  - destruct w; cbn [StreamModel.received] in X.
    + rewrite P, (peer_unknown tbl (look sid reg) any_kind f R (look_other _ _ N)) in X. destruct f; try discriminate X. injection X as <-. reflexivity.
    + rewrite (recv_stream tbl (look sid reg) any_kind Host bs f P R), (look_other _ _ N) in X. injection X as <-. reflexivity.
    + rewrite (recv_stream tbl (look sid reg) any_kind Guest bs f P R), (look_other _ _ N) in X. injection X as <-. reflexivity.
Qed.

(** ** This stream *)
Definition doing (f : frame) : list act := map (ACall tt) (asks f) ++ (if ends_stream f then [ARemove sid] else []).
Lemma own_doing : forall f, filter own (doing f) = doing f.
Proof.
  intro f. unfold doing. rewrite filter_app. f_equal; [induction (asks f) as [|c l IH]; [reflexivity|]; cbn [map filter StreamModel.own]; rewrite IH; reflexivity|]. destruct (ends_stream f); [|reflexivity]. cbn [filter StreamModel.own]. rewrite N.eqb_refl. reflexivity.
Qed.
Lemma good_parse : forall f, good f -> is_request f = false -> frame_parse (wire f) = Ret (Some f).
Proof. intros f (A & B & _) R. rewrite (frame_parse_wire f A B). destruct f; try reflexivity. discriminate R. Qed.
Lemma recv_own : forall w tbl (reg : bool) f, good f -> is_request f = false ->
  if reg then received w tbl reg (wire f) = Ret (doing f) else received w tbl reg (wire f) = Ret [] \/ exists e, received w tbl reg (wire f) = Fail e.
Proof.
  intros w tbl reg f G R. assert (P := good_parse f G R). destruct G as (_ & _ & S).
  assert (D : @for_stream H unit any_kind tt f = Ret (doing f)).
  { rewrite asks_ok. replace (forallb (has_method (any_kind tt)) (asks f)) with true by (destruct f as [| | |p|]; try reflexivity; cbn [asks]; destruct (pf_next p), (pf_complete p); reflexivity). unfold doing. rewrite S. reflexivity. }
  destruct reg.
  - assert (L : look sid true (frame_sid f) = Some tt) by (rewrite S, look_own; reflexivity). destruct w; cbn [StreamModel.received].
    + rewrite P, (peer_stream tbl (look sid true) any_kind f tt R L). exact D.
    + rewrite (recv_stream tbl (look sid true) any_kind Host _ f P R), L. exact D.
    + rewrite (recv_stream tbl (look sid true) any_kind Guest _ f P R), L. exact D.
  - assert (L : look sid false (frame_sid f) = None) by reflexivity. destruct w; cbn [StreamModel.received].
    + rewrite P, (peer_unknown tbl (look sid false) any_kind f R L). destruct f; eauto.
    + rewrite (recv_stream tbl (look sid false) any_kind Host _ f P R), L. left. reflexivity.
    + rewrite (recv_stream tbl (look sid false) any_kind Guest _ f P R), L. left. reflexivity.
Qed.

(** Naming a handler is a matter of the metadata. *)
Definition verdict (tbl : ikind -> list (option H)) (K : option H) : Prop := match K with Some h => names tbl RS md h | None => forall h, ~ names tbl RS md h end.
Lemma verdict_ex : forall tbl, exists K, verdict tbl K.
Proof.
  intro tbl. destruct (N.leb_spec 8 (len md)) as [L|L].
  - destruct (nth_error (tbl RS) (N.to_nat (number4 md))) as [[h|]|] eqn:E; [exists (Some h); split; assumption|exists None; intros h [_ B]; congruence|exists None; intros h [_ B]; congruence].
  - exists None. intros h [A _]. lia.
Qed.
Lemma recv_open : forall w tbl reg n K, few tbl -> verdict tbl K -> exists l, received w tbl reg (wire (with_n req n)) = Ret l /\
  match K with Some h => exists p, filter own l = [ARegister sid; ARun RS h sid data (handler_metadata w RS md) p (u32z n)] | None => filter own l = [ASend refusal] end.
Proof.
  intros w tbl reg n K Few V. destruct Snd as (W & L & F).
  assert (G : good (with_n req n)) by (apply up_good; left; exists n; reflexivity). assert (P := frame_parse_wire _ (proj1 G) (proj1 (proj2 G))).
  cbn [with_n on_wire] in P. set (r := request_on_wire _) in P.
  assert (Rm : rf_metadata r = md) by reflexivity. assert (Rd : rf_data r = data) by reflexivity. assert (Rs : rf_stream_id r = sid) by reflexivity. assert (Rn : rf_initial_n r = u32z n) by reflexivity. assert (Rt : rf_type r = request_type RS) by reflexivity. assert (Rf : rf_follows r = false) by reflexivity.
  assert (Hh : exists l, @handle H unit tbl (look sid reg) w RS (rf_stream_id r) (rf_data r) (rf_metadata r) (rf_initial_n r) = Ret l /\
     match K with Some h => exists p, filter own l = [ARegister sid; ARun RS h sid data (handler_metadata w RS md) p (u32z n)] | None => filter own l = [ASend refusal] end).
  { rewrite Rm, Rd, Rs, Rn. clear P r Rm Rd Rs Rn Rt Rf G. unfold DispatchModel.handle. unfold refusal. destruct (N.ltb_spec (len md) 8) as [L8|L8].
    - destruct K as [h|]; [destruct V; lia|]. eexists. split; [reflexivity|]. cbn [filter]. unfold StreamModel.own. cbn [frame_sid]. rewrite N.eqb_refl. reflexivity.
    - rewrite get_be4 by (assumption || lia). cbn [bind].
      assert (P : match w with
                  | Host => do rest <- slice_from md 4 ; do p <- get_be 4 rest ; Ret (if p =? 0 then None else look sid reg p)
                  | _ => Ret None
                  end = @Ret derr _ (parent_of (look sid reg) w md)).
      { destruct w; try reflexivity. assert (S4 : @slice_from derr N md 4 = Ret (skipn 4 md)) by (unfold slice_from; destruct (N.leb_spec 4 (len md)); [reflexivity|lia]). rewrite S4. cbn [bind]. rewrite get_be4; [reflexivity|apply wf_skipn; exact W|]. rewrite len_skipn. lia. }
      rewrite P. cbn [bind]. rewrite (get_from_slot (look sid reg) _ _ (Few RS)). cbn [bind]. unfold InvokeProofs.slot.
      destruct (nth_error (tbl RS) (N.to_nat (number4 md))) as [[h|]|] eqn:Q.
      + destruct K as [h'|]; [|exfalso; apply (V h); split; [lia|exact Q]]. destruct V as [_ V]. assert (h' = h) by congruence. subst h'.
        assert (R : (if strips w RS then slice_from md 8 else Ret md) = @Ret derr _ (handler_metadata w RS md)) by (destruct w; reflexivity).
        rewrite R. cbn [bind]. eexists. split; [reflexivity|]. exists (parent_of (look sid reg) w md). destruct w; cbn [registers app filter]; unfold StreamModel.own; rewrite N.eqb_refl; reflexivity.
      + destruct K as [h'|]; [destruct V as [_ V]; congruence|]. eexists. split; [reflexivity|]. cbn [filter]. unfold StreamModel.own. cbn [frame_sid]. rewrite N.eqb_refl. reflexivity.
      + destruct K as [h'|]; [destruct V as [_ V]; congruence|]. eexists. split; [reflexivity|]. cbn [filter]. unfold StreamModel.own. cbn [frame_sid]. rewrite N.eqb_refl. reflexivity. }
  destruct w; cbn [StreamModel.received].
  -  rewrite P.
    unfold HandleFrame. cbn [frame_type]. rewrite Rt. replace (FrameTypeRequestN <=? request_type RS) with false by reflexivity. rewrite kind_of_type. exact Hh.
  - destruct (recv_request tbl (look sid reg) any_kind Host _ r P) as (k & Kk & E). 
    rewrite E, Rf. assert (k = RS) by (destruct k; try discriminate Kk; reflexivity). subst k. exact Hh.
  - destruct (recv_request tbl (look sid reg) any_kind Guest _ r P) as (k & Kk & E). 
    rewrite E, Rf. assert (k = RS) by (destruct k; try discriminate Kk; reflexivity). subst k. exact Hh.
Qed.
End Wire.
