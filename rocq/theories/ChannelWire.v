(** What the dispatchers make of the frames of a channel. *)
From Coq Require Import List NArith ZArith Lia Bool ZifyBool ZifyNat ZifyN.
From Verif Require Import Base BaseLemmas FramesModel FramesSpec FramesProofs InvokeModel InvokeProofs MonoModel FluxModel FluxSpec ProxyModel ProxySpec DispatchModel DispatchSpec DispatchProofs ResponderModel ResponderSpec.
From Verif Require Import StreamModel StreamSpec StreamSides StreamWire StreamInv ChannelModel.
From Verif Require CallSpec.
Import ListNotations.
Open Scope N_scope.

Section Wire.
Context {H : Type}.
Context (sid : N) (data md : bytes).
Context (Sid : sid < 2^31) (Snd : CallSpec.sendable data md).
Notation req := (channel_request sid data md).
Notation act := (act H unit).
Notation received := (@received H sid).
Notation own := (@own H sid).
Notation good := (good sid).
Notation refusal := (refusal sid md).

(** The frames of the two sides. *)
Definition side_frame (f : frame) : Prop := (exists n, f = FRequestN sid (u32z n)) \/ f = FramesModel.FCancel sid \/ (good f /\ is_answer f = true).
Definition chan_frame (f : frame) : Prop := (exists n, f = with_n req n) \/ side_frame f.

Lemma side_good : forall f, side_frame f -> good f /\ is_request f = false.
Proof.
  intros f U. destruct U as [[n E]|[E|[G A]]]; [subst f|subst f|].
  - split; [|reflexivity]. split; [split; [exact Sid|apply (u32z_range sid Sid)]|]. split; reflexivity.
  - split; [|reflexivity]. split; [exact Sid|]. split; reflexivity.
  - split; [exact G|]. destruct f; discriminate A || reflexivity.
Qed.
Lemma chan_good : forall f, chan_frame f -> good f.
Proof.
  intros f [[n E]|U]; [|exact (proj1 (side_good f U))]. subst f. destruct Snd as (_ & L & F). split; [|split; [exact L|reflexivity]].
  cbn [with_n frame_in_range rf_stream_id rf_type rf_initial_n rf_metadata rf_data channel_request]. change FrameTypeRequestChannel with 7. split; [exact Sid|]. split; [lia|]. split; [apply (u32z_range sid Sid)|exact F].
Qed.

(** Naming a handler is a matter of the metadata. *)
Definition cverdict (tbl : ikind -> list (option H)) (K : option H) : Prop := match K with Some h => names tbl RC md h | None => forall h, ~ names tbl RC md h end.
Lemma cverdict_ex : forall tbl, exists K, cverdict tbl K.
Proof.
  intro tbl. destruct (N.leb_spec 8 (len md)) as [L|L].
  - destruct (nth_error (tbl RC) (N.to_nat (number4 md))) as [[h|]|] eqn:E; [exists (Some h); split; assumption|exists None; intros h [_ B]; congruence|exists None; intros h [_ B]; congruence].
  - exists None. intros h [A _]. lia.
Qed.
Lemma recv_channel : forall w tbl reg n K, few tbl -> cverdict tbl K -> exists l, received w tbl reg (wire (with_n req n)) = Ret l /\
  match K with Some h => exists p, filter own l = [ARegister sid; ARun RC h sid data (handler_metadata w RC md) p (u32z n)] | None => filter own l = [ASend refusal] end.
Proof.
  intros w tbl reg n K Few V. destruct Snd as (W & L & F).
  assert (G : good (with_n req n)) by (apply chan_good; left; exists n; reflexivity). assert (P := frame_parse_wire _ (proj1 G) (proj1 (proj2 G))).
  cbn [with_n on_wire] in P. set (r := request_on_wire _) in P.
  assert (Rm : rf_metadata r = md) by reflexivity. assert (Rd : rf_data r = data) by reflexivity. assert (Rs : rf_stream_id r = sid) by reflexivity. assert (Rn : rf_initial_n r = u32z n) by reflexivity. assert (Rt : rf_type r = request_type RC) by reflexivity. assert (Rf : rf_follows r = false) by reflexivity.
  assert (Hh : exists l, @handle H unit tbl (look sid reg) w RC (rf_stream_id r) (rf_data r) (rf_metadata r) (rf_initial_n r) = Ret l /\
     match K with Some h => exists p, filter own l = [ARegister sid; ARun RC h sid data (handler_metadata w RC md) p (u32z n)] | None => filter own l = [ASend refusal] end).
  { rewrite Rm, Rd, Rs, Rn. clear P r Rm Rd Rs Rn Rt Rf G. unfold DispatchModel.handle. unfold StreamWire.refusal. destruct (N.ltb_spec (len md) 8) as [L8|L8].
    - destruct K as [h|]; [destruct V; lia|]. eexists. split; [reflexivity|]. cbn [filter]. unfold StreamModel.own. cbn [frame_sid]. rewrite N.eqb_refl. reflexivity.
    - rewrite get_be4 by (assumption || lia). cbn [bind].
      assert (P : match w with
                  | Host => do rest <- slice_from md 4 ; do p <- get_be 4 rest ; Ret (if p =? 0 then None else look sid reg p)
                  | _ => Ret None
                  end = @Ret derr _ (parent_of (look sid reg) w md)).
      { destruct w; try reflexivity. assert (S4 : @slice_from derr N md 4 = Ret (skipn 4 md)) by (unfold slice_from; destruct (N.leb_spec 4 (len md)); [reflexivity|lia]). rewrite S4. cbn [bind]. rewrite get_be4; [reflexivity|apply wf_skipn; exact W|]. rewrite len_skipn. lia. }
      rewrite P. cbn [bind]. rewrite (get_from_slot (look sid reg) _ _ (Few RC)). cbn [bind]. unfold InvokeProofs.slot.
      destruct (nth_error (tbl RC) (N.to_nat (number4 md))) as [[h|]|] eqn:Q.
      + destruct K as [h'|]; [|exfalso; apply (V h); split; [lia|exact Q]]. destruct V as [_ V]. assert (h' = h) by congruence. subst h'.
        assert (R : (if strips w RC then slice_from md 8 else Ret md) = @Ret derr _ (handler_metadata w RC md)) by (destruct w; reflexivity).
        rewrite R. cbn [bind]. eexists. split; [reflexivity|]. exists (parent_of (look sid reg) w md). destruct w; cbn [registers app filter]; unfold StreamModel.own; rewrite N.eqb_refl; reflexivity.
      + destruct K as [h'|]; [destruct V as [_ V]; congruence|]. eexists. split; [reflexivity|]. cbn [filter]. unfold StreamModel.own. cbn [frame_sid]. rewrite N.eqb_refl. reflexivity.
      + destruct K as [h'|]; [destruct V as [_ V]; congruence|]. eexists. split; [reflexivity|]. cbn [filter]. unfold StreamModel.own. cbn [frame_sid]. rewrite N.eqb_refl. reflexivity. }
  destruct w; cbn [StreamModel.received].
  - rewrite P. unfold HandleFrame. cbn [frame_type]. rewrite Rt. replace (FrameTypeRequestN <=? request_type RC) with false by reflexivity. rewrite kind_of_type. exact Hh.
  - destruct (recv_request tbl (look sid reg) any_kind Host _ r P) as (k & Kk & E). rewrite E, Rf. assert (k = RC) by (destruct k; try discriminate Kk; reflexivity). subst k. exact Hh.
  - destruct (recv_request tbl (look sid reg) any_kind Guest _ r P) as (k & Kk & E). rewrite E, Rf. assert (k = RC) by (destruct k; try discriminate Kk; reflexivity). subst k. exact Hh.
Qed.
End Wire.

(** ** What received frames do, by calls *)
Lemma effects_answers : forall l, Forall (fun f => f <> FramesModel.FCancel (frame_sid f)) l -> effects (filter is_answer l) = effects l /\ ended (filter is_answer l) = ended l.
Proof.
  induction 1 as [|f l N F [IH1 IH2]]; [split; reflexivity|]. cbn [filter]. destruct f; cbn [is_answer frame_sid] in *.
  - congruence.
  - cbn [effects ended existsb ends_stream fx asks flat_map app orb]. fold (ended l). rewrite ?IH1, ?IH2. split; reflexivity.
  - cbn [effects ended existsb ends_stream app orb]. fold (ended l) (ended (filter is_answer l)). rewrite ?IH1, ?IH2. split; reflexivity.
  - cbn [effects ended existsb]. fold (ended l) (ended (filter is_answer l)). rewrite ?IH1, ?IH2. split; reflexivity.
  - cbn [effects ended existsb]. fold (ended l) (ended (filter is_answer l)). rewrite ?IH1, ?IH2. split; reflexivity.
Qed.
