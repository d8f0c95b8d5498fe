From Coq Require Import List NArith ZArith Lia Bool ZifyBool ZifyNat ZifyN.
From Verif Require Import Base BaseLemmas FramesModel FramesSpec FramesProofs BatchSpec BatchProofs TcpModel TcpSpec TcpProofs.
Import ListNotations.
Open Scope N_scope.

Lemma no_stall_tail : forall c cs, no_stall (c :: cs) -> no_stall cs.
Proof. intros c cs H pre run post E. apply (H (c :: pre) run post). rewrite E; reflexivity. Qed.

Lemma no_stall_cut : forall c c' cs, no_stall (c :: cs) -> c' <> [] -> no_stall (c' :: cs).
Proof.
  intros c c' cs H N pre run post E. destruct pre as [|p pre].
  - destruct run; [lia|]. cbn in E. injection E as E1 E2. contradiction.
  - cbn in E. injection E as E1 E2. apply (H (c :: pre) run post). rewrite E2; reflexivity.
Qed.

Definition sel (r : reader) : list bytes := if r_with r then removelast (r_chunks r) else r_chunks r.

Record loop_out (s : scanner) (r : reader) (s' : scanner) (r' : reader) (d : bytes) : Prop := mkOut {
  lo_old : s_old s' = s_old s; lo_start : s_start s' = s_start s; lo_end : s_end s' = s_end s + len d; lo_fit : s_end s' <= len (s_buf s');
  lo_buf : len (s_buf s') = len (s_buf s); lo_data : data_of s' = data_of s ++ d;
  lo_keep : firstn (N.to_nat (s_end s)) (s_buf s') = firstn (N.to_nat (s_end s)) (s_buf s);
  lo_chunks : concat (r_chunks r) = d ++ concat (r_chunks r'); lo_final : r_final r' = r_final r; lo_with : r_with r' = r_with r;
  lo_stall : no_stall (r_chunks r');
  lo_what : (s_err s' = None /\ 0 < len d /\ exists x, d ++ concat (sel r') = concat (sel r) ++ x)
            \/ (s_err s' = Some (r_final r) /\ concat (sel r) = [] /\ concat (r_chunks r') = []) }.

Lemma setErr_store : forall s d e, s_err s = None -> s_err (setErr (store s d) e) = Some e.
Proof. intros s d e H. unfold setErr, store; cbn [s_err]. rewrite H. reflexivity. Qed.

Lemma read_loop_ok : forall left s r, ok s -> s_end s < len (s_buf s) -> no_stall (r_chunks r) ->
  (forall run post, r_chunks r = repeat [] run ++ post -> (run <= left)%nat) ->
  exists s' r' d, read_loop left s r = (s', r') /\ loop_out s r s' r' d.
Proof.
  induction left; intros s r O H NS R; pose proof O as (O1 & O2 & O3 & O4).
  - destruct r as [chunks fin w]; cbn [r_chunks r_final r_with] in *. cbn [read_loop]. unfold conn_read; cbn [r_chunks r_final r_with].
    destruct chunks as [|c rest].
    + destruct (store_ok s [] O1) as (S1 & S2 & S3); [rewrite len_nil; lia|].
      exists (setErr (store s []) fin), (mkReader [] fin w), []. split; [reflexivity|].
      constructor; cbn [r_chunks r_final r_with setErr s_old s_start s_end s_buf store sel]; try reflexivity; try assumption; rewrite ?len_nil; try lia.
      * cbn [store s_buf] in S2. rewrite S2; lia.
      * right. split; [apply setErr_store; exact O4|]. unfold sel; cbn [r_with r_chunks]. destruct w; auto.
    + destruct (len c <=? len (s_buf s) - s_end s) eqn:F.
      * destruct (store_ok s c O1) as (S1 & S2 & S3); [lia|].
        assert (D : (rest = [] /\ w = true) \/ match rest with [] => if w then Some fin else None | _ :: _ => None end = None) by (destruct rest; destruct w; auto).
        destruct D as [[-> ->]| ->].
        -- exists (setErr (store s c) fin), (mkReader [] fin true), c. split; [reflexivity|].
           constructor; cbn [r_chunks r_final r_with setErr s_old s_start s_end s_buf]; try reflexivity; try assumption.
           ++ change (s_end (store s c)) with (s_end s + len c). rewrite S2. lia.
           ++ eapply no_stall_tail; eassumption.
           ++ right. split; [apply setErr_store; exact O4|]. unfold sel; cbn [r_with r_chunks removelast concat]. auto.
        -- destruct (0 <? len c) eqn:Z.
           ++ exists (store s c), (mkReader rest fin w), c. split; [reflexivity|].
              constructor; cbn [r_chunks r_final r_with]; try reflexivity; try assumption.
              ** change (s_end (store s c)) with (s_end s + len c). rewrite S2. lia.
              ** eapply no_stall_tail; eassumption.
              ** left. split; [exact O4|]. split; [lia|]. unfold sel; cbn [r_with r_chunks]. destruct w; [|exists []; rewrite app_nil_r; reflexivity].
                 destruct rest; [exists c; cbn [removelast concat app]; rewrite app_nil_r; reflexivity | exists []; rewrite app_nil_r; reflexivity].
           ++ exfalso. assert (c = []) by (apply len_0; lia). subst c. specialize (R 1%nat rest eq_refl). lia.
      * assert (FL : len (firstn (N.to_nat (len (s_buf s) - s_end s)) c) = len (s_buf s) - s_end s) by (rewrite len_firstn; lia).
        set (d := firstn (N.to_nat (len (s_buf s) - s_end s)) c) in *.
        destruct (store_ok s d O1) as (S1 & S2 & S3); [lia|].
        replace (0 <? len d) with true by (symmetry; apply N.ltb_lt; lia).
        assert (CE : c = d ++ skipn (N.to_nat (len (s_buf s) - s_end s)) c) by (unfold d; rewrite firstn_skipn; reflexivity).
        exists (store s d), (mkReader (skipn (N.to_nat (len (s_buf s) - s_end s)) c :: rest) fin w), d. split; [reflexivity|].
        constructor; cbn [r_chunks r_final r_with]; try reflexivity; try assumption.
        -- change (s_end (store s d)) with (s_end s + len d). rewrite S2. lia.
        -- cbn [concat]. rewrite app_assoc, <- CE; reflexivity.
        -- eapply no_stall_cut; [eassumption|]. intros E. apply (f_equal len) in E. rewrite len_skipn, len_nil in E. lia.
        -- left. split; [exact O4|]. split; [lia|]. unfold sel; cbn [r_with r_chunks]. destruct w.
           ++ destruct rest; [exists d; cbn [removelast concat]; rewrite app_nil_r; reflexivity|].
              exists []. rewrite app_nil_r. change (removelast (?a :: ?b :: ?l)) with (a :: removelast (b :: l)). cbn [concat].
              rewrite app_assoc, <- CE; reflexivity.
           ++ exists []. rewrite app_nil_r. cbn [concat]. rewrite app_assoc, <- CE; reflexivity.
  - destruct r as [chunks fin w]; cbn [r_chunks r_final r_with] in *. cbn [read_loop]. unfold conn_read; cbn [r_chunks r_final r_with].
    destruct chunks as [|c rest].
    + destruct (store_ok s [] O1) as (S1 & S2 & S3); [rewrite len_nil; lia|].
      exists (setErr (store s []) fin), (mkReader [] fin w), []. split; [reflexivity|].
      constructor; cbn [r_chunks r_final r_with setErr s_old s_start s_end s_buf store sel]; try reflexivity; try assumption; rewrite ?len_nil; try lia.
      * cbn [store s_buf] in S2. rewrite S2; lia.
      * right. split; [apply setErr_store; exact O4|]. unfold sel; cbn [r_with r_chunks]. destruct w; auto.
    + destruct (len c <=? len (s_buf s) - s_end s) eqn:F.
      * destruct (store_ok s c O1) as (S1 & S2 & S3); [lia|].
        assert (D : (rest = [] /\ w = true) \/ match rest with [] => if w then Some fin else None | _ :: _ => None end = None) by (destruct rest; destruct w; auto).
        destruct D as [[-> ->]| ->].
        -- exists (setErr (store s c) fin), (mkReader [] fin true), c. split; [reflexivity|].
           constructor; cbn [r_chunks r_final r_with setErr s_old s_start s_end s_buf]; try reflexivity; try assumption.
           ++ change (s_end (store s c)) with (s_end s + len c). rewrite S2. lia.
           ++ eapply no_stall_tail; eassumption.
           ++ right. split; [apply setErr_store; exact O4|]. unfold sel; cbn [r_with r_chunks removelast concat]. auto.
        -- destruct (0 <? len c) eqn:Z.
           ++ exists (store s c), (mkReader rest fin w), c. split; [reflexivity|].
              constructor; cbn [r_chunks r_final r_with]; try reflexivity; try assumption.
              ** change (s_end (store s c)) with (s_end s + len c). rewrite S2. lia.
              ** eapply no_stall_tail; eassumption.
              ** left. split; [exact O4|]. split; [lia|]. unfold sel; cbn [r_with r_chunks]. destruct w; [|exists []; rewrite app_nil_r; reflexivity].
                 destruct rest; [exists c; cbn [removelast concat app]; rewrite app_nil_r; reflexivity | exists []; rewrite app_nil_r; reflexivity].
           ++ assert (c = []) by (apply len_0; lia). subst c.
              assert (O' : ok (store s [])) by (unfold ok; rewrite S2; cbn [store s_start s_end s_err]; rewrite len_nil; repeat split; try lia; assumption).
              assert (H' : s_end (store s []) < len (s_buf (store s []))) by (rewrite S2; cbn [store s_end]; rewrite len_nil; lia).
              destruct (IHleft (store s []) (mkReader rest fin w) O' H') as (s' & r' & d & E & L).
              ** eapply no_stall_tail; eassumption.
              ** intros run post E. cbn [r_chunks] in E. specialize (R (Datatypes.S run) post). rewrite E in R. specialize (R eq_refl). lia.
              ** exists s', r', d. split; [exact E|]. destruct L.
                 constructor; cbn [r_chunks r_final r_with] in *; try assumption.
                 --- rewrite lo_end0. cbn [store s_end]. rewrite len_nil. lia.
                 --- rewrite lo_buf0, S2; reflexivity.
                 --- rewrite lo_data0, S1, app_nil_r; reflexivity.
                 --- cbn [store s_end] in lo_keep0. rewrite len_nil, N.add_0_r in lo_keep0. rewrite lo_keep0. exact S3.
                 --- destruct lo_what0 as [(A1 & A2 & x & A3)|(A1 & A2 & A3)]; [left; split; [exact A1|split; [exact A2|]]|right; split; [exact A1|split; [|exact A3]]].
                     +++ unfold sel in *; cbn [r_with r_chunks] in *. destruct w; [|exists x; exact A3].
                         destruct rest; [exists (d ++ concat (if r_with r' then removelast (r_chunks r') else r_chunks r')); reflexivity | exists x; exact A3].
                     +++ unfold sel in *; cbn [r_with r_chunks] in *. destruct w; [|exact A2]. destruct rest; [reflexivity|exact A2].
      * assert (FL : len (firstn (N.to_nat (len (s_buf s) - s_end s)) c) = len (s_buf s) - s_end s) by (rewrite len_firstn; lia).
        set (d := firstn (N.to_nat (len (s_buf s) - s_end s)) c) in *.
        destruct (store_ok s d O1) as (S1 & S2 & S3); [lia|].
        replace (0 <? len d) with true by (symmetry; apply N.ltb_lt; lia).
        assert (CE : c = d ++ skipn (N.to_nat (len (s_buf s) - s_end s)) c) by (unfold d; rewrite firstn_skipn; reflexivity).
        exists (store s d), (mkReader (skipn (N.to_nat (len (s_buf s) - s_end s)) c :: rest) fin w), d. split; [reflexivity|].
        constructor; cbn [r_chunks r_final r_with]; try reflexivity; try assumption.
        -- change (s_end (store s d)) with (s_end s + len d). rewrite S2. lia.
        -- cbn [concat]. rewrite app_assoc, <- CE; reflexivity.
        -- eapply no_stall_cut; [eassumption|]. intros E. apply (f_equal len) in E. rewrite len_skipn, len_nil in E. lia.
        -- left. split; [exact O4|]. split; [lia|]. unfold sel; cbn [r_with r_chunks]. destruct w.
           ++ destruct rest; [exists d; cbn [removelast concat]; rewrite app_nil_r; reflexivity|].
              exists []. rewrite app_nil_r. change (removelast (?a :: ?b :: ?l)) with (a :: removelast (b :: l)). cbn [concat].
              rewrite app_assoc, <- CE; reflexivity.
           ++ exists []. rewrite app_nil_r. cbn [concat]. rewrite app_assoc, <- CE; reflexivity.
Qed.

(** ** One call of Scan *)

Record token_out (s : scanner) (r : reader) (v : view) (s' : scanner) (r' : reader) (body : bytes) : Prop := mkTok {
  to_ok : ok s'; to_body : 0 < len body < 2^24; to_buf : v_buf v = length (s_old s'); to_vlen : v_len v = 3 + len body;
  to_end : v_off v + v_len v = s_start s'; to_bytes : view_bytes (memory s') v = delimited body;
  to_pend : pend s r = delimited body ++ pend s' r'; to_final : r_final r' = r_final r; to_with : r_with r' = r_with r;
  to_seen : exists x, delimited body ++ seen s' r' = seen s r ++ x;
  to_stall : no_stall (r_chunks r') }.

Lemma nth_memory : forall s, nth (length (s_old s)) (memory s) [] = s_buf s.
Proof. intros. unfold memory. rewrite app_nth2 by lia. rewrite Nat.sub_diag. reflexivity. Qed.

Lemma scanner_eta : forall s, s_err s = None -> mkScanner (s_old s) (s_buf s) (s_start s + 0) (s_end s) None = s.
Proof. intros s H. rewrite N.add_0_r. destruct s as [a b c d e]; cbn [s_old s_buf s_start s_end s_err] in *. rewrite H; reflexivity. Qed.

Lemma Scan_ok : forall fuel s r, ok s -> no_stall (r_chunks r) -> wf (pend s r) -> (length (concat (r_chunks r)) + 2 <= fuel)%nat ->
  exists res s' r', Scan fuel s r = Some (res, s', r') /\
  match res with
  | Some v => exists body, token_out s r v s' r' body
  | None => (s_err s' = Some InvalidFrameLength /\ exists rest, pend s r = delimited [] ++ rest) \/ (s_err s' = Some (r_final r) /\ incomplete (seen s r))
  end.
Proof.
  induction fuel as [|fuel IH]; intros s r O NS W F; [lia|].
  pose proof O as (O1 & O2 & O3 & O4).
  assert (WD : wf (data_of s)) by (unfold pend in W; apply wf_app in W; apply W).
  (* reading more *)
  assert (MORE : incomplete (data_of s) -> len (data_of s) < 2^24 + 2 -> exists res s' r',
    match grow (shift s) with
    | None => Some (None, setErr (shift s) TooLong, r)
    | Some s => let '(s, r) := read_loop maxConsecutiveEmptyReads s r in Scan fuel s r
    end = Some (res, s', r') /\
    match res with
    | Some v => exists body, token_out s r v s' r' body
    | None => (s_err s' = Some InvalidFrameLength /\ exists rest, pend s r = delimited [] ++ rest) \/ (s_err s' = Some (r_final r) /\ incomplete (seen s r))
    end).
  { intros I L. destruct (shift_ok s O) as (P1 & P2 & P3 & P4 & P5).
    destruct (grow_ok (shift s) P1) as (g & G1 & G2 & G3 & G4).
    { rewrite P3. intros E. split; [exact (P5 E)|]. rewrite P2. unfold maxBuffSize. change (2^24) with 16777216 in L. lia. }
    rewrite G1. rewrite P2 in G3.
    destruct (read_loop_ok maxConsecutiveEmptyReads g r G2 G4 NS) as (s1 & r1 & d & E1 & Q).
    { intros run post E. apply (NS [] run post). exact E. }
    rewrite E1. destruct Q. destruct G2 as (g1 & g2 & g3 & g4).
    destruct lo_what0 as [(A1 & A2 & x & A3)|(A1 & A2 & A3)].
    - assert (OK1 : ok s1) by (unfold ok; rewrite A1, lo_start0, lo_end0, lo_buf0; rewrite lo_end0, lo_buf0 in lo_fit0; repeat split; lia).
      assert (PE : pend s1 r1 = pend s r) by (unfold pend; rewrite lo_data0, G3, lo_chunks0, <- app_assoc; reflexivity).
      assert (SE : seen s1 r1 = seen s r ++ x) by (unfold seen; fold (sel r1); fold (sel r); rewrite lo_data0, G3, <- !app_assoc, A3; reflexivity).
      destruct (IH s1 r1 OK1 lo_stall0) as (res & s' & r' & R1 & R2); [rewrite PE; exact W | rewrite lo_chunks0 in F; rewrite app_length in F; unfold len in A2; lia|].
      exists res, s', r'. split; [exact R1|]. destruct res as [v|].
      + destruct R2 as (body & T). exists body. destruct T. constructor; try assumption; try congruence.
        destruct to_seen0 as (y & Y). exists (x ++ y). rewrite Y, SE, <- app_assoc; reflexivity.
      + rewrite PE, lo_final0, SE in R2. destruct R2 as [R2|[R2 R3]]; [left; exact R2|right; split; [exact R2|eapply incomplete_prefix; exact R3]].
    - destruct fuel as [|fuel']; [lia|].
      assert (SC : Scan (Datatypes.S fuel') s1 r1 = Some (None, mkScanner (s_old s1) (s_buf s1) 0 0 (s_err s1), r1)).
      { cbn [Scan]. rewrite A1, orb_true_r. cbn [doSplit s_err s_old s_buf]. reflexivity. }
      exists None. eexists. eexists. split; [exact SC|]. cbn [s_err]. right. split; [exact A1|]. unfold seen. fold (sel r). rewrite A2, app_nil_r. exact I. }
  cbn [Scan]. rewrite O4, orb_false_r.
  destruct (s_start s <? s_end s) eqn:Z.
  - destruct (doSplit_cases (data_of s) WD) as [(body & rest & D1 & D2 & D3)|[(rest & D1 & D2)|(D1 & D2 & D3)]].
    + rewrite D3. eexists. eexists. eexists. split; [reflexivity|]. exists body.
      pose proof (data_len s O1 O2) as DL. pose proof DL as DL2. rewrite D1, len_app, delimited_len in DL2.
      assert (D4 : data_of (mkScanner (s_old s) (s_buf s) (s_start s + (3 + len body)) (s_end s) None) = rest).
      { unfold data_of; cbn [s_start s_end s_buf].
        assert (E : skipn (N.to_nat (3 + len body)) (data_of s) = rest) by (rewrite D1; apply skipn_len_app; pose proof (delimited_len body) as X; unfold len in *; lia).
        rewrite <- E. unfold data_of. rewrite skipn_firstn_comm, skipn_skipn.
        f_equal; [lia|]. f_equal. lia. }
      constructor; cbn [s_old s_start s_end s_buf s_err v_buf v_off v_len]; try reflexivity; try assumption.
      * unfold ok; cbn [s_start s_end s_buf s_err]. repeat split; lia.
      * unfold view_bytes; cbn [v_buf v_off v_len]. 
        match goal with |- context [memory ?x] => change (nth (length (s_old s)) (memory x) []) with (nth (length (s_old x)) (memory x) []); rewrite (nth_memory x) end.
        cbn [s_buf].
        assert (E : firstn (N.to_nat (3 + len body)) (data_of s) = delimited body) by (rewrite D1; apply firstn_len_app; pose proof (delimited_len body) as X; unfold len in *; lia).
        rewrite <- E. unfold data_of. rewrite firstn_firstn. f_equal. lia.
      * unfold pend. rewrite D4, D1, <- app_assoc. reflexivity.
      * exists []. rewrite app_nil_r. unfold seen. rewrite D4, D1, <- app_assoc. reflexivity.
    + rewrite D2. eexists. eexists. eexists. split; [reflexivity|]. cbn. rewrite O4. left. split; [reflexivity|]. exists (rest ++ concat (r_chunks r)).
      unfold pend. rewrite D1. rewrite <- app_assoc. reflexivity.
    + rewrite D3. cbn [s_err]. rewrite (scanner_eta s O4).
      apply MORE; assumption.
  - assert (D : data_of s = []) by (apply len_0; rewrite data_len by assumption; lia).
    apply MORE; rewrite D; [|reflexivity].
    intros body rest _ E. apply (f_equal len) in E. rewrite len_app, delimited_len, len_nil in E. lia.
Qed.
