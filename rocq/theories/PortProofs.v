(** Lemmas about port messages. *)
From Coq Require Import List NArith ZArith Lia Bool ZifyBool ZifyNat ZifyN.
From Verif Require Import Base BaseLemmas FramesSpec FramesProofs OperationsModel OperationsSpec OperationsProofs PortModel PortSpec.
Import ListNotations.
Open Scope N_scope.
Ltac Zify.zify_post_hook ::= Z.div_mod_to_equations.

Lemma pcheck_odd : forall f, pcheck f 1 = N.odd f.
Proof. intros [|[p|p|]]; reflexivity. Qed.

Lemma decode_spec : forall fl port data, len port <= 65535 ->
  PortDecode (port_bytes fl port data) = Ret (mkPort port data (N.odd fl) (N.odd fl)).
Proof.
  intros fl port data H. unfold PortDecode, port_bytes. cbn [index nth_error app bind].
  change (fl :: bytes2 (len port) ++ port ++ data) with ([fl] ++ bytes2 (len port) ++ port ++ data).
  rewrite slice_from_app by reflexivity. cbn [bind]. rewrite get2 by lia. cbn [bind].
  rewrite slice_from_app by reflexivity. cbn [bind].
  rewrite slice_to_app by reflexivity. cbn [bind].
  rewrite slice_from_app by reflexivity. cbn [bind]. rewrite pcheck_odd. unfold PFlagNext. rewrite pcheck_odd. reflexivity.
Qed.

Lemma decode_iff : forall bs p, wf bs -> (PortDecode bs = Ret p <->
  exists fl, fl < 256 /\ bs = port_bytes fl (p_port p) (p_data p) /\ len (p_port p) <= 65535
             /\ p_complete p = N.odd fl /\ p_next p = N.odd fl).
Proof.
  intros bs p Hwf. split.
  - intro H. unfold PortDecode in H. cbv zeta in H.
    apply bind_ret in H as (fl & H1 & H). apply index_inv in H1.
    destruct bs as [|b bs]; [discriminate|]. cbn in H1. injection H1 as ->. apply wf_cons in Hwf as [W0 Hwf].
    change (fl :: bs) with ([fl] ++ bs) in H. rewrite slice_from_app in H by reflexivity. cbn [bind] in H.
    apply bind_ret in H as (n & H1 & H). apply get_be_inv in H1 as (r & -> & Hn); [|exact Hwf].
    rewrite slice_from_app in H by (rewrite be_len; reflexivity). cbn [bind] in H.
    apply bind_ret in H as (port & H1 & H). apply slice_to_inv in H1 as (d & -> & Lp).
    rewrite slice_from_app in H by (symmetry; exact Lp). cbn [bind] in H. injection H as <-.
    exists fl. cbn [p_port p_data p_complete p_next]. rewrite pcheck_odd. unfold PFlagNext. rewrite pcheck_odd.
    unfold port_bytes. rewrite be2_bytes2, Lp. change (256 ^ N.of_nat 2) with 65536 in Hn. repeat split; auto. lia.
  - intros (fl & Hf & -> & HL & Hc & Hn). rewrite decode_spec by exact HL. rewrite <- Hc at 1. rewrite <- Hn.
    destruct p; reflexivity.
Qed.

Lemma encode_spec : forall p, PortEncode p =
  Ret ([if p_complete p || p_next p then 1 else 0] ++ bytes2 (len (p_port p) mod 65536) ++ p_port p ++ p_data p).
Proof.
  intros [port data c n]. unfold PortEncode. cbn [p_port p_data p_complete p_next].
  set (buf := repeat 0 _).
  assert (LB : len buf = 3 + len port + len data) by (unfold buf; rewrite len_repeat; lia). clearbody buf.
  replace (u8 _) with (if c || n then 1 else 0) by (destruct c, n; reflexivity).
  set (fl := if c || n then 1 else 0). clearbody fl.
  pose proof (put_step no_err [] buf [fl] 0 eq_refl) as P. cbn [app] in P.
  rewrite P by (rewrite LB, len_cons; change (len (@nil N)) with 0; lia). cbn [bind].
  rewrite be2_bytes2. set (m := u16 (len port)). change (len port mod 65536) with m. clearbody m.
  rewrite adv_ok by lens. cbn [bind].
  change (fl :: skipn (length [fl]) buf) with ([fl] ++ skipn (length [fl]) buf).
  rewrite put_step by lens. cbn [bind].
  rewrite adv_ok by lens. cbn [bind].
  rewrite copy_step by lens. cbn [bind].
  rewrite adv_ok by lens. cbn [bind].
  rewrite copy_step by lens. f_equal.
  rewrite !skipn_skipn. rewrite (skipn_all2 buf).
  - rewrite app_nil_r, <- !app_assoc. reflexivity.
  - unfold bytes2. cbn [length]. unfold len in LB. lia.
Qed.

Lemma encode_wf : forall p bs, wf (p_port p) -> wf (p_data p) -> PortEncode p = Ret bs -> wf bs.
Proof.
  intros p bs W1 W2 H. rewrite encode_spec in H.
  assert (E : bs = [if p_complete p || p_next p then 1 else 0] ++ bytes2 (len (p_port p) mod 65536) ++ p_port p ++ p_data p) by congruence.
  subst bs. apply wf_app; split; [|apply wf_app; split; [apply bytes2_wf|apply wf_app; auto]].
  constructor; [|constructor]. unfold is_byte. destruct (_ || _); lia.
Qed.

Theorem port_round_trip_iff : forall p, wf (p_port p) -> wf (p_data p) -> exists bs, PortEncode p = Ret bs
  /\ (PortDecode bs = Ret p <-> len (p_port p) <= 65535 /\ p_complete p = p_next p).
Proof.
  intros p W1 W2. eexists. split; [apply encode_spec|]. rewrite decode_iff by (eapply encode_wf; eauto; apply encode_spec).
  split.
  - intros (fl & Hf & E & HL & Hc & Hn). split; [exact HL|congruence].
  - intros [HL Heq]. exists (if p_complete p || p_next p then 1 else 0).
    split; [destruct (_ || _); lia|]. split.
    + unfold port_bytes. rewrite N.mod_small by lia. reflexivity.
    + split; [exact HL|]. destruct (p_complete p), (p_next p); try discriminate; auto.
Qed.

Theorem port_contents_survive : forall p, len (p_port p) <= 65535 ->
  exists bs, PortEncode p = Ret bs /\ PortDecode bs =
    Ret (mkPort (p_port p) (p_data p) (p_complete p || p_next p) (p_complete p || p_next p)).
Proof.
  intros p H. eexists. split; [apply encode_spec|].
  pose proof (decode_spec (if p_complete p || p_next p then 1 else 0) (p_port p) (p_data p) H) as D.
  unfold port_bytes in D. rewrite N.mod_small by lia. rewrite D. destruct (_ || _); reflexivity.
Qed.

Theorem port_marks_never_differ : forall bs p, wf bs -> PortDecode bs = Ret p -> p_complete p = p_next p.
Proof. intros bs p W H. apply decode_iff in H as (fl & _ & _ & _ & -> & ->); auto. Qed.

Theorem port_decode_panics_iff : forall bs, wf bs ->
  (PortDecode bs = Panic <-> forall fl port data, len port <= 65535 -> bs <> port_bytes fl port data).
Proof.
  intros bs W. split.
  - intros H fl port data HL ->. rewrite decode_spec in H by exact HL. discriminate.
  - intro H. destruct (PortDecode bs) as [p|[]|] eqn:E; [|reflexivity].
    apply decode_iff in E as (fl & _ & E & HL & _); auto. exfalso. eapply H; eauto.
Qed.
