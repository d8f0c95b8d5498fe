(** Proofs about dispatching. *)
From Coq Require Import List NArith ZArith Lia Bool ZifyBool ZifyNat ZifyN.
From Verif Require Import Base BaseLemmas FramesModel FramesSpec FramesProofs InvokeModel InvokeProofs TcpReads DispatchModel DispatchSpec.
Import ListNotations.
Open Scope N_scope.
Ltac Zify.zify_post_hook ::= Z.div_mod_to_equations.

Lemma number4_unbe : forall l, wf l -> 4 <= len l -> unbe (firstn 4 l) = number4 l.
Proof.
  intros l W L. destruct l as [|a [|b [|c [|d l]]]]; try (unfold len in L; cbn [length] in L; lia).
  repeat (apply wf_cons in W as [? W]). change (firstn 4 (a :: b :: c :: d :: l)) with ([a; b; c] ++ [d]).
  rewrite unbe_snoc by assumption. change [a; b; c] with ([a; b] ++ [c]). rewrite unbe_snoc by assumption.
  change [a; b] with ([a] ++ [b]). rewrite unbe_snoc by assumption. change [a] with ([] ++ [a]). rewrite unbe_snoc by assumption.
  change (unbe []) with 0. unfold number4. lia.
Qed.
Lemma get_be4 : forall E l, wf l -> 4 <= len l -> @get_be E 4 l = Ret (number4 l).
Proof.
  intros E l W L. unfold get_be. change (N.of_nat 4) with 4. destruct (N.leb_spec 4 (len l)); [|lia]. rewrite number4_unbe by assumption. reflexivity.
Qed.

Lemma wire_fields : forall bs, wf bs -> 6 <= len bs -> hdr_type (firstn 6 bs) = wire_type bs /\ hdr_stream_id (firstn 6 bs) = wire_sid bs.
Proof.
  intros bs W L. destruct bs as [|a [|b [|c [|d [|e [|f l]]]]]]; try (unfold len in L; cbn [length] in L; lia). clear L.
  split.
  - repeat (apply wf_cons in W as [? W]). unfold is_byte in *. change (firstn 6 (a :: b :: c :: d :: e :: f :: l)) with [a; b; c; d; e; f].
    unfold hdr_type, hdr_n, wire_type. change (firstn 2 (skipn 4 [a; b; c; d; e; f])) with ([e] ++ [f]). change (nth 4 (a :: b :: c :: d :: e :: f :: l) 0) with e.
    rewrite unbe_snoc by assumption. change [e] with ([] ++ [e]). rewrite unbe_snoc by assumption. change (unbe []) with 0.
    rewrite N.shiftr_land. change (N.shiftr 0xFC00 10) with (2^6 - 1). rewrite land_ones_mod, N.shiftr_div_pow2. change (2^10) with 1024. change (2^6) with 64. lia.
  - unfold hdr_stream_id. change (firstn 4 (firstn 6 (a :: b :: c :: d :: e :: f :: l))) with (firstn 4 (a :: b :: c :: d :: e :: f :: l)).
    rewrite number4_unbe by (assumption || (unfold len; cbn [length]; lia)). change 0x7FFFFFFF with (2^31 - 1). rewrite land_ones_mod. reflexivity.
Qed.

Section Proofs.
Context {H S : Type}.
Context (tbl : ikind -> list (option H)) (get : N -> option S) (kind : S -> skind).
Notation handle := (handle tbl get).
Notation HandleFrame := (HandleFrame tbl get kind).
Notation recv_one := (recv_one tbl get kind).
Notation for_stream := (@for_stream H S kind).

Lemma get_from_slot : forall (l : list (option H)) i, len l < 2^32 -> get_from l i = Ret (slot l i).
Proof.
  intros l i L. unfold get_from, slot, u32. rewrite N.mod_small by exact L. destruct (N.leb_spec (len l) i) as [L1|L1].
  - rewrite (proj2 (nth_error_None l (N.to_nat i))); [reflexivity|unfold len in L1; lia].
  - destruct (nth_error l (N.to_nat i)) eqn:X; [reflexivity|]. apply nth_error_None in X. unfold len in L1. lia.
Qed.

Lemma slice_from_ok : forall E A (l : list A) n, n <= len l -> @slice_from E A l n = Ret (skipn (N.to_nat n) l).
Proof. intros. unfold slice_from. destruct (N.leb_spec n (len l)); [reflexivity|lia]. Qed.

Lemma handle_ok : forall w k r, few tbl -> wf (rf_metadata r) ->
  exists l, handle w k (rf_stream_id r) (rf_data r) (rf_metadata r) (rf_initial_n r) = Ret l /\ answered tbl w k r l
    /\ (runs l <> [] -> parents l = [parent_of get w (rf_metadata r)] /\ registered l = (if registers w k then [rf_stream_id r] else [])).
Proof.
  intros w k r F W. unfold DispatchModel.handle. destruct (N.ltb_spec (len (rf_metadata r)) 8) as [L|L].
  - eexists. split; [reflexivity|]. split; [|intro X; exfalso; apply X; reflexivity]. split; [reflexivity|]. split; [reflexivity|]. right.
    split; [|split; [reflexivity|split; [reflexivity|]]].
    + intros h [X _]. lia.
    + cbn. destruct (N.ltb_spec (len (rf_metadata r)) 8); [reflexivity|lia].
  - rewrite get_be4 by (assumption || lia). cbn [bind].
    assert (P : match w with
                | Host => do rest <- slice_from (rf_metadata r) 4 ; do p <- get_be 4 rest ; Ret (if p =? 0 then None else get p)
                | _ => Ret None
                end = @Ret derr _ (parent_of get w (rf_metadata r))).
    { destruct w; try reflexivity. rewrite slice_from_ok by lia. cbn [bind]. change (N.to_nat 4) with 4%nat.
      rewrite get_be4; [reflexivity|apply wf_skipn; exact W|]. rewrite len_skipn. lia. }
    rewrite P. cbn [bind]. rewrite (get_from_slot _ _ (F k)). cbn [bind]. unfold slot.
    destruct (nth_error (tbl k) (N.to_nat (number4 (rf_metadata r)))) as [[h|]|] eqn:X.
    + assert (Q : (if strips w k then slice_from (rf_metadata r) 8 else Ret (rf_metadata r)) = @Ret derr _ (handler_metadata w k (rf_metadata r))).
      { destruct w, k; try reflexivity; cbn [strips handler_metadata]; rewrite slice_from_ok by lia; reflexivity. }
      rewrite Q. cbn [bind]. eexists. split; [reflexivity|]. split.
      * destruct (registers w k); (split; [reflexivity|]; split; [reflexivity|]; left; exists h; split; [split; assumption|split; reflexivity]).
      * intros _. destruct (registers w k); split; reflexivity.
    + eexists. split; [reflexivity|]. split; [|intro Y; exfalso; apply Y; reflexivity]. split; [reflexivity|]. split; [reflexivity|]. right.
      split; [|split; [reflexivity|split; [reflexivity|]]].
      * intros h [_ Y]. rewrite X in Y. discriminate Y.
      * cbn. destruct (N.ltb_spec (len (rf_metadata r)) 8); [lia|reflexivity].
    + eexists. split; [reflexivity|]. split; [|intro Y; exfalso; apply Y; reflexivity]. split; [reflexivity|]. split; [reflexivity|]. right.
      split; [|split; [reflexivity|split; [reflexivity|]]].
      * intros h [_ Y]. rewrite X in Y. discriminate Y.
      * cbn. destruct (N.ltb_spec (len (rf_metadata r)) 8); [lia|reflexivity].
Qed.

Lemma kind_of_type : forall k, kind_of (request_type k) = Some k.
Proof. destruct k; reflexivity. Qed.
Lemma kind_of_inv : forall ty k, kind_of ty = Some k -> ty = request_type k.
Proof.
  intros ty k. unfold kind_of. destruct (N.eqb_spec ty FrameTypeRequestResponse); [intro X; injection X as <-; assumption|].
  destruct (N.eqb_spec ty FrameTypeRequestFNF); [intro X; injection X as <-; assumption|].
  destruct (N.eqb_spec ty FrameTypeRequestStream); [intro X; injection X as <-; assumption|].
  destruct (N.eqb_spec ty FrameTypeRequestChannel); [intro X; injection X as <-; assumption|discriminate].
Qed.

Lemma peer_request : forall r k, few tbl -> wf (rf_metadata r) -> rf_type r = request_type k ->
  exists l, HandleFrame (FRequest r) = Ret l /\ answered tbl Peer k r l
    /\ (runs l <> [] -> parents l = [parent_of get Peer (rf_metadata r)] /\ registered l = (if registers Peer k then [rf_stream_id r] else [])).
Proof.
  intros r k F W T. destruct (handle_ok Peer k r F W) as (l & E & A). exists l. split; [|exact A].
  unfold DispatchModel.HandleFrame. cbn [frame_type]. rewrite T. replace (FrameTypeRequestN <=? request_type k) with false by (destruct k; reflexivity).
  rewrite kind_of_type. exact E.
Qed.

(** ** Streams *)
Lemma asks_ok : forall s f, for_stream s f =
  if forallb (has_method (kind s)) (asks f)
  then Ret (map (ACall s) (asks f) ++ (if ends_stream f then [ARemove (frame_sid f)] else []))
  else Panic.
Proof.
  intros s f. unfold DispatchModel.for_stream. destruct f as [sid|sid n|sid code d|p|r]; cbn [asks ends_stream frame_sid forallb map app]; unfold call_on.
  - destruct (has_method (kind s) OnComplete); reflexivity.
  - destruct (has_method (kind s) (DoRequest n)); reflexivity.
  - destruct (has_method (kind s) (OnError d)), (has_method (kind s) OnComplete); reflexivity.
  - destruct (pf_next p), (pf_complete p); cbn [app forallb map bind]; try reflexivity.
    + destruct (has_method (kind s) (OnNext (pf_data p) (pf_metadata p))), (has_method (kind s) OnComplete); reflexivity.
    + destruct (has_method (kind s) (OnNext (pf_data p) (pf_metadata p))); reflexivity.
    + destruct (has_method (kind s) OnComplete); reflexivity.
  - reflexivity.
Qed.

Lemma crash_iff : forall s f, crashes s f <-> forallb (has_method s) (asks f) = false.
Proof.
  intros s f. destruct s as [|i|sub sink], f as [sid|sid n|sid code d|p|r]; cbn [crashes asks forallb has_method andb]; try (destruct (pf_next p), (pf_complete p)); cbn [app forallb has_method andb];
    try (destruct i); try (destruct sub); try (destruct sink); cbn [andb]; intuition (discriminate || congruence || auto).
Qed.

Lemma for_stream_ok : forall s f, ~ crashes (kind s) f -> exists l, for_stream s f = Ret l /\
  stream_calls l = map (fun c => (s, c)) (asks f) /\ removed l = (if ends_stream f then [frame_sid f] else []) /\
  sent l = [] /\ runs l = [] /\ registered l = [].
Proof.
  intros s f C. rewrite asks_ok. destruct (forallb (has_method (kind s)) (asks f)) eqn:X; [|exfalso; apply C, crash_iff; exact X].
  eexists. split; [reflexivity|]. unfold stream_calls, removed, sent, runs, registered. rewrite !flat_map_app.
  assert (Z : forall B (g : act H S -> list B), (forall c, g (ACall s c) = []) -> flat_map g (map (ACall s) (asks f)) = []).
  { intros B g0 G. clear X. induction (asks f) as [|c t IH]; [reflexivity|]. cbn. rewrite G. exact IH. }
  assert (Z' : forall t, flat_map (fun a : act H S => match a with ACall s0 c => [(s0, c)] | _ => [] end) (map (ACall s) t) = map (fun c => (s, c)) t).
  { induction t as [|c t IH]; [reflexivity|]. cbn. rewrite <- IH. reflexivity. }
  rewrite Z'. rewrite !Z by reflexivity. destruct (ends_stream f); cbn; rewrite ?app_nil_r; auto.
Qed.
Lemma for_stream_panic : forall s f, for_stream s f = Panic <-> crashes (kind s) f.
Proof.
  intros s f. rewrite crash_iff, asks_ok. destruct (forallb (has_method (kind s)) (asks f)); split; intro X; congruence || discriminate X || reflexivity.
Qed.

Lemma peer_stream : forall f s, is_request f = false -> get (frame_sid f) = Some s -> HandleFrame f = for_stream s f.
Proof.
  intros f s R G. unfold DispatchModel.HandleFrame. replace (FrameTypeRequestN <=? frame_type f) with true by (destruct f; reflexivity || discriminate R).
  rewrite G. reflexivity.
Qed.
Lemma peer_unknown : forall f, is_request f = false -> get (frame_sid f) = None ->
  HandleFrame f = match f with FRequestN _ _ => Ret [] | _ => Fail (NotFound (frame_sid f)) end.
Proof.
  intros f R G. unfold DispatchModel.HandleFrame. replace (FrameTypeRequestN <=? frame_type f) with true by (destruct f; reflexivity || discriminate R).
  rewrite G. destruct f; reflexivity || discriminate R.
Qed.

Lemma peer_panic : forall f, few tbl -> wf (frame_metadata f) -> (is_request f = true -> frame_type f < 8) ->
  (HandleFrame f = Panic <-> exists s, get (frame_sid f) = Some s /\ crashes (kind s) f).
Proof.
  intros f F W T. destruct (is_request f) eqn:R.
  - destruct f as [| | | |r]; try discriminate R. specialize (T eq_refl). cbn [frame_type] in T. split.
    + destruct (kind_of (rf_type r)) as [k|] eqn:K.
      * apply kind_of_inv in K. destruct (peer_request r k F W K) as (l & E & _). rewrite E. discriminate.
      * unfold DispatchModel.HandleFrame. cbn [frame_type]. rewrite K. change FrameTypeRequestN with 8.
        destruct (N.leb_spec 8 (rf_type r)); [lia|discriminate].
    + intros (s & _ & C). destruct (kind s); contradiction C.
  - destruct (get (frame_sid f)) as [s|] eqn:G.
    + rewrite (peer_stream f s R G), for_stream_panic. split; [intro C; exists s; auto|]. intros (s' & X & C). congruence.
    + rewrite (peer_unknown f R G). split; [destruct f; intro X; discriminate X|]. intros (s & X & _). discriminate X.
Qed.


(** ** Bytes *)
Definition h6 (bs : bytes) : bytes := firstn 6 bs.
Lemma parse_short : forall E bs, len bs < 6 -> @ParseFrameHeader E bs = Panic.
Proof. intros E bs L. unfold ParseFrameHeader, slice_to. change FrameHeaderLen with 6. destruct (N.leb_spec 6 (len bs)); [lia|reflexivity]. Qed.
Lemma parse_long : forall E bs, 6 <= len bs -> @ParseFrameHeader E bs = Ret (firstn 6 bs) /\ @slice_from E N bs FrameHeaderLen = Ret (skipn 6 bs).
Proof.
  intros E bs L. unfold ParseFrameHeader, slice_to, slice_from. change FrameHeaderLen with 6. destruct (N.leb_spec 6 (len bs)); [|lia]. split; reflexivity.
Qed.

Lemma request_decode_form : forall h p f, request_decode h p = Ret f -> exists r, f = FRequest r /\ rf_type r = hdr_type h /\ rf_stream_id r = hdr_stream_id h.
Proof.
  intros h p f. unfold request_decode. destruct (if has_initial_n (hdr_type h) then _ else _) as [[n q]|e|]; cbn [bind]; try discriminate.
  destruct (decode_metadata _ q) as [[m d]|e|]; cbn [bind]; try discriminate. intro X. assert (Y : f = FRequest (mkRequest (hdr_type h) (hdr_stream_id h) m d (Check (hdr_flag h) FlagFollow) (if hdr_type h =? FrameTypeRequestChannel then Check (hdr_flag h) FlagComplete else true) n)) by congruence.
  subst f. eexists. split; [reflexivity|]. split; reflexivity.
Qed.
Lemma payload_decode_form : forall h p f, payload_decode h p = Ret f -> is_request f = false /\ frame_sid f = hdr_stream_id h.
Proof.
  intros h p f. unfold payload_decode. destruct (decode_metadata _ p) as [[m d]|e|]; cbn [bind]; try discriminate. intro X.
  match type of X with Ret ?a = _ => assert (Y : f = a) by congruence end. subst f. split; reflexivity.
Qed.
Lemma requestn_decode_form : forall h p f, requestn_decode h p = Ret f -> is_request f = false /\ frame_sid f = hdr_stream_id h.
Proof.
  intros h p f. unfold requestn_decode. destruct (get_be 4 p) as [n|e|]; cbn [bind]; try discriminate. intro X.
  match type of X with Ret ?a = _ => assert (Y : f = a) by congruence end. subst f. split; reflexivity.
Qed.
Lemma error_decode_form : forall h p f, error_decode h p = Ret f -> is_request f = false /\ frame_sid f = hdr_stream_id h.
Proof.
  intros h p f. unfold error_decode. destruct (get_be 4 p) as [n|e|]; cbn [bind]; try discriminate. destruct (slice_from p 4) as [d|e|]; cbn [bind]; try discriminate. intro X.
  match type of X with Ret ?a = _ => assert (Y : f = a) by congruence end. subst f. split; reflexivity.
Qed.

Lemma kind_none : forall ty, kind_of ty = None -> ty < 8 -> (FrameTypeRequestResponse <=? ty) && (ty <=? FrameTypeRequestChannel) = false.
Proof.
  intros ty K L. unfold kind_of in K.
  destruct (N.eqb_spec ty FrameTypeRequestResponse); [discriminate K|]. destruct (N.eqb_spec ty FrameTypeRequestFNF); [discriminate K|].
  destruct (N.eqb_spec ty FrameTypeRequestStream); [discriminate K|]. destruct (N.eqb_spec ty FrameTypeRequestChannel); [discriminate K|].
  unfold FrameTypeRequestResponse, FrameTypeRequestFNF, FrameTypeRequestStream, FrameTypeRequestChannel in *. lia.
Qed.

Lemma decode_metadata_wf : forall has p m d, wf p -> decode_metadata has p = Ret (m, d) -> wf m.
Proof.
  intros has p m d W D. destruct (decode_metadata_tail _ _ _ _ D) as (pre & ->). apply wf_app in W as [_ W]. apply wf_app in W as [W _]. exact W.
Qed.
Lemma slice_from_wf : forall E p n q, wf p -> @slice_from E N p n = Ret q -> wf q.
Proof. intros E p n q W X. unfold slice_from in X. destruct (n <=? len p); [|discriminate X]. injection X as <-. apply wf_skipn. exact W. Qed.
Lemma parsed_wf : forall bs r, wf bs -> frame_parse bs = Ret (Some (FRequest r)) -> wf (rf_metadata r).
Proof.
  intros bs r W P. destruct (N.lt_ge_cases (len bs) 6) as [L|L].
  - unfold frame_parse in P. rewrite parse_short in P by exact L. discriminate P.
  - unfold frame_parse in P. destruct (parse_long no_error bs L) as [E1 E2]. rewrite E1 in P. cbn [bind] in P. rewrite E2 in P. cbn [bind] in P.
    clear E1 E2. assert (W' : wf (skipn 6 bs)) by (apply wf_skipn; exact W). set (h := firstn 6 bs) in *. set (p := skipn 6 bs) in *. unfold frame_decode in P.
    destruct (_ && _) in P.
    + unfold request_decode in P.
      destruct (if has_initial_n (hdr_type h) then _ else _) as [[n q]|e|] eqn:Q in P; cbn [bind] in P; try discriminate P.
      assert (Wq : wf q).
      { destruct (has_initial_n (hdr_type h)); [|congruence]. destruct (get_be 4 p) as [n'|e|]; cbn [bind] in Q; try discriminate Q.
        destruct (slice_from p 4) as [q'|e|] eqn:SF; cbn [bind] in Q; try discriminate Q. assert (q' = q) by congruence. subst q'. exact (slice_from_wf _ _ _ _ W' SF). }
      destruct (decode_metadata _ q) as [[m d]|e|] eqn:D in P; cbn [bind] in P; try discriminate P.
      assert (X : rf_metadata r = m) by (injection P as <-; reflexivity). rewrite X. exact (decode_metadata_wf _ _ _ _ Wq D).
    + destruct (hdr_type h =? FrameTypeRequestN) in P. { unfold requestn_decode in P. destruct (get_be 4 p); cbn [bind] in P; discriminate P. }
      destruct (hdr_type h =? FrameTypeCancel) in P. { cbn [bind cancel_decode] in P. discriminate P. }
      destruct (hdr_type h =? FrameTypePayload) in P. { unfold payload_decode in P. destruct (decode_metadata _ p) as [[m d]|e|]; cbn [bind] in P; discriminate P. }
      destruct (hdr_type h =? FrameTypeError) in P; [|discriminate P]. unfold error_decode in P. destruct (get_be 4 p); cbn [bind] in P; try discriminate P. destruct (slice_from p 4); cbn [bind] in P; discriminate P.
Qed.

(** The one-frame receivers against parsing the frame first. *)
Lemma recv_parse : forall w bs, recv_one w bs =
  if len bs <? 6 then Panic
  else
    let ty := hdr_type (firstn 6 bs) in
    let sid := hdr_stream_id (firstn 6 bs) in
    if ty <? 8 then
      match frame_parse bs with
      | Ret (Some (FRequest r)) => if rf_follows r then Ret [AKeep r]
                                   else match kind_of (rf_type r) with
                                        | Some k => handle w k (rf_stream_id r) (rf_data r) (rf_metadata r) (rf_initial_n r)
                                        | None => Ret []
                                        end
      | Ret _ => Ret []
      | _ => Panic
      end
    else match get sid with
         | None => Ret []
         | Some s => match frame_parse bs with Ret (Some f) => for_stream s f | Ret None => Ret [] | _ => Panic end
         end.
Proof.
  intros w bs. unfold DispatchModel.recv_one. destruct (N.ltb_spec (len bs) 6) as [L|L].
  - rewrite parse_short by exact L. reflexivity.
  - destruct (parse_long derr bs L) as [-> ->]. cbn [bind]. unfold frame_parse. destruct (parse_long no_error bs L) as [-> ->]. cbn [bind].
    set (h := firstn 6 bs). set (p := skipn 6 bs). cbv zeta. change FrameTypeRequestN with 8 at 1.
    destruct (N.leb_spec 8 (hdr_type h)) as [T|T].
    + destruct (N.ltb_spec (hdr_type h) 8); [lia|]. destruct (get (hdr_stream_id h)) as [s|]; [|reflexivity].
      unfold frame_decode, decoded. change FrameTypeRequestChannel with 7.
      replace ((FrameTypeRequestResponse <=? hdr_type h) && (hdr_type h <=? 7)) with false by (symmetry; apply andb_false_iff; right; apply N.leb_gt; lia).
      destruct (hdr_type h =? FrameTypeRequestN); [destruct (requestn_decode h p); reflexivity|].
      destruct (hdr_type h =? FrameTypeCancel); [reflexivity|].
      destruct (hdr_type h =? FrameTypePayload); [destruct (payload_decode h p); reflexivity|].
      destruct (hdr_type h =? FrameTypeError); [destruct (error_decode h p); reflexivity|]. reflexivity.
    + destruct (N.ltb_spec (hdr_type h) 8); [|lia]. unfold frame_decode, decoded.
      assert (N1 : (hdr_type h =? FrameTypeRequestN) = false) by (apply N.eqb_neq; change FrameTypeRequestN with 8; lia).
      assert (N2 : (hdr_type h =? FrameTypeCancel) = false) by (apply N.eqb_neq; change FrameTypeCancel with 9; lia).
      assert (N3 : (hdr_type h =? FrameTypePayload) = false) by (apply N.eqb_neq; change FrameTypePayload with 10; lia).
      assert (N4 : (hdr_type h =? FrameTypeError) = false) by (apply N.eqb_neq; change FrameTypeError with 11; lia).
      rewrite N1, N2, N3, N4. destruct (kind_of (hdr_type h)) as [k|] eqn:K.
      * assert (K' := kind_of_inv _ _ K).
        replace ((FrameTypeRequestResponse <=? hdr_type h) && (hdr_type h <=? FrameTypeRequestChannel)) with true by (rewrite K'; destruct k; reflexivity).
        destruct (request_decode h p) as [f|e|] eqn:D; cbn [bind]; try reflexivity.
        destruct (request_decode_form _ _ _ D) as (r & -> & Tr & _). rewrite Tr, K. reflexivity.
      * rewrite (kind_none _ K T). reflexivity.
Qed.

Lemma parse_form : forall bs f, frame_parse bs = Ret (Some f) ->
  6 <= len bs /\ frame_sid f = hdr_stream_id (firstn 6 bs) /\ frame_type f = hdr_type (firstn 6 bs) /\
  match f with FRequest r => exists k, rf_type r = request_type k | _ => True end.
Proof.
  intros bs f P. destruct (N.lt_ge_cases (len bs) 6) as [L|L].
  - unfold frame_parse in P. rewrite parse_short in P by exact L. discriminate P.
  - split; [exact L|]. unfold frame_parse in P. destruct (parse_long no_error bs L) as [E1 E2]. rewrite E1 in P. cbn [bind] in P. rewrite E2 in P. cbn [bind] in P.
    clear E1 E2. set (h := firstn 6 bs) in *. set (p := skipn 6 bs) in *. unfold frame_decode in P.
    destruct ((FrameTypeRequestResponse <=? hdr_type h) && (hdr_type h <=? FrameTypeRequestChannel)) eqn:T.
    + destruct (request_decode h p) as [g|e|] eqn:D; cbn [bind] in P; try discriminate P. assert (g = f) by congruence. subst g.
      destruct (request_decode_form _ _ _ D) as (r & -> & Tr & Sr). split; [exact Sr|]. split; [exact Tr|].
      change FrameTypeRequestResponse with 4 in T. change FrameTypeRequestChannel with 7 in T. rewrite Tr.
      assert (C : hdr_type h = 4 \/ hdr_type h = 5 \/ hdr_type h = 6 \/ hdr_type h = 7) by lia.
      destruct C as [C|[C|[C|C]]]; [exists RR|exists FNF|exists RS|exists RC]; exact C.
    + clear T. destruct (N.eqb_spec (hdr_type h) FrameTypeRequestN) as [T|_].
      { destruct (requestn_decode h p) as [g|e|] eqn:D; cbn [bind] in P; try discriminate P. assert (g = f) by congruence. subst g.
        unfold requestn_decode in D. destruct (get_be 4 p); cbn [bind] in D; try discriminate D. match type of D with Ret ?a = _ => assert (f = a) by congruence end. subst f.
        split; [reflexivity|]. split; [symmetry; exact T|exact Logic.I]. }
      destruct (N.eqb_spec (hdr_type h) FrameTypeCancel) as [T|_].
      { cbn [bind cancel_decode] in P. match type of P with Ret (Some ?a) = _ => assert (f = a) by congruence end. subst f. split; [reflexivity|]. split; [symmetry; exact T|exact Logic.I]. }
      destruct (N.eqb_spec (hdr_type h) FrameTypePayload) as [T|_].
      { destruct (payload_decode h p) as [g|e|] eqn:D; cbn [bind] in P; try discriminate P. assert (g = f) by congruence. subst g.
        unfold payload_decode in D. destruct (decode_metadata _ p) as [[m d]|e|]; cbn [bind] in D; try discriminate D. match type of D with Ret ?a = _ => assert (f = a) by congruence end. subst f.
        split; [reflexivity|]. split; [symmetry; exact T|exact Logic.I]. }
      destruct (N.eqb_spec (hdr_type h) FrameTypeError) as [T|_]; [|discriminate P].
      { destruct (error_decode h p) as [g|e|] eqn:D; cbn [bind] in P; try discriminate P. assert (g = f) by congruence. subst g.
        unfold error_decode in D. destruct (get_be 4 p); cbn [bind] in D; try discriminate D. destruct (slice_from p 4); cbn [bind] in D; try discriminate D.
        match type of D with Ret ?a = _ => assert (f = a) by congruence end. subst f. split; [reflexivity|]. split; [symmetry; exact T|exact Logic.I]. }
Qed.

Lemma recv_request : forall w bs r, frame_parse bs = Ret (Some (FRequest r)) ->
  exists k, rf_type r = request_type k /\
  recv_one w bs = if rf_follows r then Ret [AKeep r] else handle w k (rf_stream_id r) (rf_data r) (rf_metadata r) (rf_initial_n r).
Proof.
  intros w bs r P. destruct (parse_form bs _ P) as (L & _ & T & k & K). exists k. split; [exact K|]. rewrite recv_parse.
  destruct (N.ltb_spec (len bs) 6); [lia|]. cbv zeta. cbn [frame_type] in T. rewrite <- T, K.
  replace (request_type k <? 8) with true by (destruct k; reflexivity). rewrite P, K, kind_of_type. reflexivity.
Qed.
Lemma recv_stream : forall w bs f, frame_parse bs = Ret (Some f) -> is_request f = false ->
  recv_one w bs = match get (frame_sid f) with Some s => for_stream s f | None => Ret [] end.
Proof.
  intros w bs f P R. destruct (parse_form bs _ P) as (L & S1 & T & _). rewrite recv_parse.
  destruct (N.ltb_spec (len bs) 6); [lia|]. cbv zeta. rewrite <- T, <- S1, P.
  replace (frame_type f <? 8) with false by (destruct f; reflexivity || discriminate R). reflexivity.
Qed.

Lemma recv_ok : forall w bs, few tbl -> wf bs -> recv_one w bs = Panic <->
  len bs < 6 \/ (frame_parse bs = Panic /\ (hdr_type (firstn 6 bs) < 8 \/ get (hdr_stream_id (firstn 6 bs)) <> None))
  \/ (exists f s, frame_parse bs = Ret (Some f) /\ get (frame_sid f) = Some s /\ crashes (kind s) f).
Proof.
  intros w bs F W. destruct (N.lt_ge_cases (len bs) 6) as [L|L].
  - rewrite recv_parse. destruct (N.ltb_spec (len bs) 6); [|lia]. split; auto.
  - destruct (frame_parse bs) as [[f|]|e|] eqn:P.
    + split.
      * intro X. right; right. destruct (is_request f) eqn:R.
        -- destruct f as [| | | |r]; try discriminate R. destruct (recv_request w bs r P) as (k & K & E). rewrite E in X.
           destruct (rf_follows r); [discriminate X|].
           assert (Wr : wf (rf_metadata r)) by (apply (parsed_wf bs r W P)).
           destruct (handle_ok w k r F Wr) as (l & E2 & _). rewrite E2 in X. discriminate X.
        -- rewrite (recv_stream w bs f P R) in X. destruct (get (frame_sid f)) as [s|] eqn:G; [|discriminate X]. exists f, s. split; [reflexivity|]. split; [exact G|].
           apply for_stream_panic. exact X.
      * intros [X|[[X _]|(f' & s & X & G & C)]]; [lia|discriminate X|]. assert (f' = f) by congruence. subst f'.
        assert (R : is_request f = false) by (destruct f; try reflexivity; destruct (kind s); contradiction C).
        rewrite (recv_stream w bs f P R), G. apply for_stream_panic. exact C.
    + split.
      * intro X. exfalso. rewrite recv_parse in X. destruct (N.ltb_spec (len bs) 6); [lia|]. cbv zeta in X. rewrite P in X.
        destruct (hdr_type (firstn 6 bs) <? 8); [discriminate X|]. destruct (get _); discriminate X.
      * intros [X|[[X _]|(f' & s & X & _)]]; [lia|discriminate X|discriminate X].
    + destruct e.
    + rewrite recv_parse. destruct (N.ltb_spec (len bs) 6); [lia|]. cbv zeta. rewrite P. destruct (N.ltb_spec (hdr_type (firstn 6 bs)) 8) as [T|T].
      * split; [intros _; right; left; auto|reflexivity].
      * destruct (get (hdr_stream_id (firstn 6 bs))) as [s|] eqn:G.
        -- split; [intros _; right; left; split; [reflexivity|]; right; discriminate|reflexivity].
        -- split; [discriminate|]. intros [X|[[_ [X|X]]|(f' & s & X & _)]]; [lia|lia|contradiction|discriminate X].
Qed.
End Proofs.
