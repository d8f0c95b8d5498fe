(** Lemmas about fragmentation. *)
From Coq Require Import List NArith ZArith Lia Bool ZifyBool ZifyNat ZifyN.
From Verif Require Import Base BaseLemmas FramesModel FramesSpec FramesProofs.
Import ListNotations.
Open Scope N_scope.
Ltac Zify.zify_post_hook ::= Z.div_mod_to_equations.

Lemma sub32_small : forall a b, a < 2^32 -> b <= a -> sub32 a b = a - b.
Proof. intros a b. unfold sub32. change (2^32) with 4294967296. intros. lia. Qed.
Lemma u32_small : forall a, a < 4294967296 -> u32 a = a.
Proof. intros. unfold u32. apply N.mod_small; assumption. Qed.

(** One iteration, with the 32-bit arithmetic resolved for sizes that do not wrap. *)
Lemma split_unfold : forall fuel sid next complete max data md,
  fits32 md data -> max < 2^32 ->
  splitPayloads (S fuel) sid next complete max data md =
  if (len md + len data =? 0) then Some [] else
  let nd := if nonempty md then 9 else 6 in
  let space := sub32 max nd in
  let follows := max <? nd + len md + len data in
  let '(mf, df, md', data') :=
    if space <? len md then (firstn (N.to_nat space) md, [], skipn (N.to_nat space) md, data)
    else if space - len md <? len data
         then (md, firstn (N.to_nat (space - len md)) data, [], skipn (N.to_nat (space - len md)) data)
         else (md, data, [], []) in
  match splitPayloads fuel sid next complete max data' md' with
  | None => None
  | Some fs => Some (mkPayload sid mf df follows (negb follows && complete) (negb follows && next) :: fs)
  end.
Proof.
  intros fuel sid next complete max data md Hf Hm. apply fits32_unfold in Hf.
  cbn [splitPayloads]. rewrite (u32_small (len md)), (u32_small (len data)) by lia.
  rewrite (u32_small (len md + len data)) by lia.
  destruct (len md + len data =? 0); [reflexivity|].
  assert (Hn : (0 <? len md) = nonempty md).
  { destruct md; [reflexivity|]. rewrite len_cons. cbn [nonempty]. lia. }
  rewrite Hn. unfold FrameHeaderLen. change (6+3) with 9.
  set (nd := if nonempty md then 9 else 6). cbv zeta.
  assert (nd <= 9) by (unfold nd; destruct (nonempty md); lia).
  rewrite (u32_small (nd + _ + _)) by lia.
  assert (Hs : sub32 max nd < 2^32) by (unfold sub32; apply N.mod_lt; discriminate).
  destruct (N.ltb_spec (sub32 max nd) (len md)) as [|Hge]; [reflexivity|].
  rewrite (sub32_small (sub32 max nd) (len md)) by assumption.
  destruct (N.ltb_spec (sub32 max nd - len md) (len data)); [|reflexivity].
  rewrite N.min_l by lia. reflexivity.
Qed.

Lemma nonempty_len : forall {A} (l : list A), nonempty l = (0 <? len l).
Proof. intros A [|x l]; [reflexivity|]. rewrite len_cons. cbn [nonempty]. lia. Qed.

Lemma payload_size_arith : forall p, fits32 (pf_metadata p) (pf_data p) ->
  payload_size p = 6 + (if nonempty (pf_metadata p) then 3 else 0) + len (pf_metadata p) + len (pf_data p).
Proof.
  intros p H. apply fits32_unfold in H. unfold payload_size, FrameHeaderLen.
  rewrite nonempty_ltb by (change (2^32) with 4294967296; lia).
  unfold u32; change (2^32) with 4294967296; destruct (nonempty (pf_metadata p)); lia.
Qed.

(** What a split result must satisfy. *)
Definition split_ok (sid : N) (next complete : bool) (max : N) (md data : bytes) (fs : list payload_frame) : Prop :=
  reassemble_metadata fs = md /\ reassemble_data fs = data
  /\ Forall (fun p => payload_size p <= max /\ pf_stream_id p = sid) fs
  /\ (0 < len md + len data -> marks_ok next complete fs)
  /\ (len md + len data = 0 -> fs = []).

Lemma split_correct : forall fuel sid next complete max data md,
  fits32 md data -> max < 2^32 -> (10 <= max \/ (md = [] /\ 7 <= max)) ->
  len md + len data < N.of_nat fuel ->
  exists fs, splitPayloads fuel sid next complete max data md = Some fs
             /\ split_ok sid next complete max md data fs.
Proof.
  induction fuel as [|fuel IH]; intros sid next complete max data md Hf Hm Hmax Hfuel; [lia|].
  rewrite split_unfold by assumption.
  destruct (N.eqb_spec (len md + len data) 0) as [E|E].
  { exists []. split; [reflexivity|].
    assert (md = []) by (apply len_0; lia). assert (data = []) by (apply len_0; lia). subst.
    unfold split_ok. do 2 (split; [reflexivity|]). split; [constructor|]. split; [cbn; lia|reflexivity]. }
  pose proof (fits32_unfold _ _ Hf) as Hb.
  cbv zeta. set (nd := if nonempty md then 9 else 6) in *.
  assert (Hnd : nd < max).
  { unfold nd. destruct Hmax as [|[-> ?]]; [destruct (nonempty md); lia|cbn; lia]. }
  rewrite (sub32_small max nd) by lia.
  set (space := max - nd) in *.
  destruct (N.ltb_spec space (len md)) as [H1|H1].
  - (* metadata does not fit *)
    assert (Hne : nonempty md = true) by (rewrite nonempty_len; lia).
    assert (nd = 9) by (unfold nd; rewrite Hne; reflexivity).
    destruct (IH sid next complete max data (skipn (N.to_nat space) md)) as (fs & Hfs & A & B & C & D & _).
    { unfold fits32 in *. rewrite len_skipn. lia. }
    { assumption. }
    { left. destruct Hmax as [|[-> ?]]; [lia|discriminate]. }
    { rewrite len_skipn. lia. }
    rewrite Hfs. eexists; split; [reflexivity|].
    assert (Hfol : max <? nd + len md + len data = true) by lia. rewrite Hfol. cbn [negb andb].
    unfold split_ok. repeat split.
    + unfold reassemble_metadata in *. cbn [map concat pf_metadata]. rewrite A. apply firstn_skipn.
    + unfold reassemble_data in *. cbn [map concat pf_data app]. exact B.
    + constructor; [|exact C]. split; [|reflexivity].
      rewrite payload_size_arith; cbn [pf_metadata pf_data].
      * rewrite len_firstn. change (len (@nil N)) with 0. destruct (nonempty (firstn _ _)); lia.
      * unfold fits32. rewrite len_firstn. change (len (@nil N)) with 0. unfold fits32 in Hf. lia.
    + intros _. destruct D as (front & last & -> & D1 & D2).
      { rewrite len_skipn. lia. }
      eexists (_ :: front), last. split; [reflexivity|]. split; [|exact D2].
      constructor; [|exact D1]. cbn. auto.
    + intros; lia.
  - destruct (N.ltb_spec (space - len md) (len data)) as [H2|H2].
    + destruct (IH sid next complete max (skipn (N.to_nat (space - len md)) data) []) as (fs & Hfs & A & B & C & D & _).
      { unfold fits32 in *. rewrite len_skipn. change (len (@nil N)) with 0. lia. }
      { assumption. }
      { destruct Hmax as [|[-> ?]]; [left; lia|right; auto]. }
      { rewrite len_skipn. change (len (@nil N)) with 0. lia. }
      rewrite Hfs. eexists; split; [reflexivity|].
      assert (Hfol : max <? nd + len md + len data = true) by lia. rewrite Hfol. cbn [negb andb].
      unfold split_ok. repeat split.
      * unfold reassemble_metadata in *. cbn [map concat pf_metadata]. rewrite A. apply app_nil_r.
      * unfold reassemble_data in *. cbn [map concat pf_data]. rewrite B. apply firstn_skipn.
      * constructor; [|exact C]. split; [|reflexivity].
        rewrite payload_size_arith; cbn [pf_metadata pf_data].
        -- rewrite len_firstn. fold nd. unfold nd in *. destruct (nonempty md); lia.
        -- unfold fits32 in *. rewrite len_firstn. lia.
      * intros _. destruct D as (front & last & -> & D1 & D2).
        { rewrite len_skipn. change (len (@nil N)) with 0. lia. }
        eexists (_ :: front), last. split; [reflexivity|]. split; [|exact D2].
        constructor; [|exact D1]. cbn. auto.
      * intros; lia.
    + (* last frame *)
      destruct fuel as [|fuel]; [lia|].
      cbn [splitPayloads]. change (u32 (u32 (len (@nil N)) + u32 (len (@nil N))) =? 0) with true. cbn iota beta.
      eexists; split; [reflexivity|].
      assert (Hfol : max <? nd + len md + len data = false) by lia. rewrite Hfol. cbn [negb andb].
      unfold split_ok. repeat split.
      * unfold reassemble_metadata. cbn. apply app_nil_r.
      * unfold reassemble_data. cbn. apply app_nil_r.
      * constructor; [|constructor]. split; [|reflexivity]. rewrite payload_size_arith; cbn [pf_metadata pf_data]; [|assumption].
        unfold nd in *. destruct (nonempty md); lia.
      * intros _. eexists [], _. split; [reflexivity|]. cbn. auto.
      * intros; lia.
Qed.

(** ** Termination, exactly *)
Definition stuck (max : N) (md data : bytes) : Prop :=
  (max = 9 /\ md <> []) \/ (max = 6 /\ md = [] /\ data <> []).

Lemma split_diverges : forall fuel sid next complete max data md,
  fits32 md data -> stuck max md data ->
  splitPayloads fuel sid next complete max data md = None.
Proof.
  induction fuel as [|fuel IH]; intros sid next complete max data md Hf Hs; [reflexivity|].
  rewrite split_unfold; [|assumption|destruct Hs as [[-> _]|[-> _]]; reflexivity].
  destruct Hs as [[-> Hmd]|(-> & -> & Hd)].
  - assert (0 < len md). { destruct md; [congruence|rewrite len_cons; lia]. }
    destruct (N.eqb_spec (len md + len data) 0); [lia|].
    rewrite nonempty_len. replace (0 <? len md) with true by lia. cbv zeta.
    change (sub32 9 9) with 0. replace (0 <? len md) with true by lia.
    change (N.to_nat 0) with 0%nat. cbn [skipn]. rewrite IH; [reflexivity|assumption|left; auto].
  - assert (0 < len data). { destruct data; [congruence|rewrite len_cons; lia]. }
    rewrite len_nil. destruct (N.eqb_spec (0 + len data) 0); [lia|].
    cbn [nonempty]. cbv zeta. change (sub32 6 6) with 0. cbn [N.ltb N.compare].
    change (0 - 0) with 0. replace (0 <? len data) with true by lia.
    change (N.to_nat 0) with 0%nat. cbn [skipn]. rewrite IH; [reflexivity|assumption|right; auto].
Qed.

Lemma split_one_shot : forall fuel sid next complete max data md nd,
  fits32 md data -> max < 2^32 -> nd = (if nonempty md then 9 else 6) -> max < nd ->
  exists fs, splitPayloads (S (S fuel)) sid next complete max data md = Some fs.
Proof.
  intros fuel sid next complete max data md nd Hf Hm -> Hlt.
  rewrite split_unfold by assumption. apply fits32_unfold in Hf.
  destruct (len md + len data =? 0); [eexists; reflexivity|].
  set (nd := if nonempty md then 9 else 6) in *. cbv zeta.
  assert (nd <= 9) by (unfold nd; destruct (nonempty md); lia).
  assert (4294967287 <= sub32 max nd).
  { unfold sub32. change (2^32) with 4294967296 in *. lia. }
  destruct (N.ltb_spec (sub32 max nd) (len md)); [lia|].
  destruct (N.ltb_spec (sub32 max nd - len md) (len data)); [lia|].
  cbn [splitPayloads]. change (u32 (u32 (len (@nil N)) + u32 (len (@nil N))) =? 0) with true. eexists; reflexivity.
Qed.

Lemma split_termination : forall sid next complete max data md,
  fits32 md data -> max < 2^32 ->
  ((exists fuel fs, splitPayloads fuel sid next complete max data md = Some fs) <-> ~ stuck max md data).
Proof.
  intros sid next complete max data md Hf Hm; split.
  - intros (fuel & fs & H) Hs. rewrite split_diverges in H by assumption. discriminate.
  - intros Hns.
    assert (Hd : md = [] \/ md <> []) by (destruct md; [auto|right; discriminate]).
    destruct (N.lt_ge_cases max (if nonempty md then 9 else 6)) as [Hlt|Hge].
    { exists 2%nat. eapply split_one_shot; eauto. }
    destruct Hd as [->|Hne].
    + cbn [nonempty] in Hge.
      destruct (N.eq_dec max 6) as [->|].
      * destruct data; [|exfalso; apply Hns; right; repeat split; discriminate].
        exists 1%nat, []. reflexivity.
      * destruct (split_correct (S (N.to_nat (len (@nil N) + len data))) sid next complete max data [])
          as (fs & H & _); eauto; [right; split; [reflexivity|lia]|lia].
    + replace (nonempty md) with true in Hge by (destruct md; [congruence|reflexivity]).
      destruct (N.eq_dec max 9) as [->|]; [exfalso; apply Hns; left; auto|].
      destruct (split_correct (S (N.to_nat (len md + len data))) sid next complete max data md)
        as (fs & H & _); eauto; [left; lia|lia].
Qed.

(** ** Payload.Fragment *)
Lemma payload_fragment_correct : forall p max fuel,
  fits32 (pf_metadata p) (pf_data p) -> 10 <= max < 2^32 ->
  len (pf_metadata p) + len (pf_data p) < N.of_nat fuel ->
  (payload_size p <= max /\ payload_fragment fuel p max = Some None)
  \/ (max < payload_size p /\ exists fs, payload_fragment fuel p max = Some (Some fs)
      /\ reassemble_metadata fs = pf_metadata p /\ reassemble_data fs = pf_data p
      /\ Forall (fun q => payload_size q <= max /\ pf_stream_id q = pf_stream_id p) fs
      /\ marks_ok (pf_next p) (pf_complete p) fs).
Proof.
  intros p max fuel Hf [Hm1 Hm2] Hfuel. unfold payload_fragment.
  destruct (N.leb_spec (payload_size p) max) as [H|H]; [left; auto|right].
  split; [assumption|].
  destruct (split_correct fuel (pf_stream_id p) (pf_next p) (pf_complete p) max (pf_data p) (pf_metadata p))
    as (fs & Hfs & A & B & C & D & _); auto.
  rewrite Hfs. exists fs. repeat split; auto. apply D.
  rewrite payload_size_arith in H by assumption. 
  destruct (nonempty (pf_metadata p)); lia.
Qed.

(** ** RequestPayload.Fragment *)
Lemma request_size_arith : forall r, fits32 (rf_metadata r) (rf_data r) ->
  request_size r = 6 + (if is_stream_or_channel (rf_type r) then 4 else 0)
    + (if nonempty (rf_metadata r) then 3 else 0) + len (rf_metadata r) + len (rf_data r).
Proof.
  intros r H. apply fits32_unfold in H. unfold request_size, FrameHeaderLen.
  rewrite nonempty_ltb by (change (2^32) with 4294967296; lia).
  change (has_initial_n (rf_type r)) with (is_stream_or_channel (rf_type r)).
  unfold u32; change (2^32) with 4294967296; destruct (is_stream_or_channel (rf_type r)), (nonempty (rf_metadata r)); lia.
Qed.

(** Room for metadata in the first frame of a fragmented request. *)
Definition first_md_room (r : request_frame) (max : N) : N :=
  max - (if is_stream_or_channel (rf_type r) then 13 else 9).

Lemma request_fragment_correct : forall r max fuel,
  fits32 (rf_metadata r) (rf_data r) -> 13 <= max < 2^32 -> max < request_size r ->
  len (rf_metadata r) + len (rf_data r) < N.of_nat fuel ->
  exists first fs, request_fragment fuel r max = Some (Ret (Some (first, fs)))
    /\ request_size first <= max
    /\ rf_type first = rf_type r /\ rf_stream_id first = rf_stream_id r
    /\ rf_initial_n first = rf_initial_n r /\ rf_follows first = true
    /\ Forall (fun q => payload_size q <= max /\ pf_stream_id q = rf_stream_id r) fs
    /\ marks_ok true (rf_complete r) fs
    /\ rf_data first ++ reassemble_data fs = rf_data r
    /\ rf_metadata first ++ reassemble_metadata fs =
         if first_md_room r max <=? len (rf_metadata r) then rf_metadata r
         else rf_metadata r ++ rf_metadata r.
Proof.
  intros r max fuel Hf [Hm1 Hm2] Hbig Hfuel.
  pose proof (fits32_unfold _ _ Hf) as Hb.
  unfold request_fragment. destruct (N.leb_spec (request_size r) max); [lia|].
  pose proof (request_size_arith r Hf) as Hsz.
  change (has_initial_n (rf_type r)) with (is_stream_or_channel (rf_type r)).
  set (sc := is_stream_or_channel (rf_type r)) in *.
  assert (Hroom : sub32 (sub32 max (if sc then FrameHeaderLen + 4 else FrameHeaderLen)) 3 = first_md_room r max).
  { unfold first_md_room. fold sc. unfold FrameHeaderLen.
    rewrite (sub32_small max) by (destruct sc; lia).
    rewrite sub32_small; destruct sc; lia. }
  rewrite Hroom. rewrite (u32_small (len (rf_metadata r))), (u32_small (len (rf_data r))) by lia.
  set (room := first_md_room r max) in *.
  assert (Hroom' : room + (if sc then 13 else 9) = max).
  { unfold room, first_md_room. fold sc. destruct sc; lia. }
  destruct (N.leb_spec room (len (rf_metadata r))) as [Hc|Hc].
  - unfold slice_to, slice_from. destruct (N.leb_spec room (len (rf_metadata r))); [|lia]. cbn [bind].
    destruct (split_correct fuel (rf_stream_id r) true (rf_complete r) max (rf_data r) (skipn (N.to_nat room) (rf_metadata r)))
      as (fs & Hfs & A & B & C & D & _).
    { unfold fits32 in *. rewrite len_skipn. lia. }
    { assumption. } { left; lia. } { rewrite len_skipn; lia. }
    rewrite Hfs. eexists _, fs. split; [reflexivity|].
    split. { rewrite request_size_arith; cbn [rf_type rf_metadata rf_data]; fold sc.
             - rewrite len_firstn. change (len (@nil N)) with 0. destruct sc, (nonempty (firstn _ _)); lia.
             - unfold fits32 in *. rewrite len_firstn. change (len (@nil N)) with 0. lia. }
    cbn [rf_type rf_stream_id rf_initial_n rf_follows rf_data rf_metadata].
    repeat split; auto.
    + apply D. rewrite len_skipn. rewrite nonempty_len in Hsz. destruct sc, (0 <? len (rf_metadata r)); lia.
    + rewrite A. apply firstn_skipn.
  - assert (Hdiff : sub32 (request_size r) max = request_size r - max).
    { apply sub32_small; [|lia]. rewrite Hsz. change (2^32) with 4294967296. destruct sc, (nonempty (rf_metadata r)); lia. }
    rewrite Hdiff. set (diff := request_size r - max) in *.
    assert (Hd : 0 < diff <= len (rf_data r)).
    { unfold diff. rewrite Hsz. destruct sc, (nonempty (rf_metadata r)); lia. }
    rewrite (sub32_small (len (rf_data r)) diff) by (change (2^32) with 4294967296; lia).
    set (off := len (rf_data r) - diff) in *.
    unfold slice_to, slice_from. destruct (N.leb_spec off (len (rf_data r))); [|lia]. cbn [bind].
    destruct (split_correct fuel (rf_stream_id r) true (rf_complete r) max (skipn (N.to_nat off) (rf_data r)) (rf_metadata r))
      as (fs & Hfs & A & B & C & D & _).
    { unfold fits32 in *. rewrite len_skipn. lia. }
    { assumption. } { left; lia. } { rewrite len_skipn; lia. }
    rewrite Hfs. eexists _, fs. split; [reflexivity|].
    split. { rewrite request_size_arith; cbn [rf_type rf_metadata rf_data]; fold sc.
             - rewrite len_firstn. unfold off, diff. rewrite Hsz. destruct sc, (nonempty (rf_metadata r)); lia.
             - unfold fits32 in *. rewrite len_firstn. lia. }
    cbn [rf_type rf_stream_id rf_initial_n rf_follows rf_data rf_metadata].
    repeat split; auto.
    + apply D. rewrite len_skipn. lia.
    + rewrite B. apply firstn_skipn.
    + rewrite A. reflexivity.
Qed.
