(** A connection that returns nothing a hundred and one times in a row is given up. *)
From Coq Require Import List NArith Lia Bool.
From Verif Require Import Base BaseLemmas FramesModel FramesSpec BatchSpec TcpModel TcpSpec TcpProofs TcpScan TcpReads.
Import ListNotations.
Open Scope N_scope.

Definition stalled (chunks post : list bytes) (fin : tcp_error) : reader := mkReader (chunks ++ repeat [] 101 ++ post) fin false.
Definition rel (r1 r2 : reader) : Prop := exists chunks post fin, r1 = mkReader chunks NoProgress false /\ r2 = stalled chunks post fin.
Definition broken (s : scanner) : bool := match s_err s with Some _ => true | None => false end.

Lemma store_nil : forall s, store s [] = s.
Proof.
  intros [old buf st en er]. unfold store. cbn [s_old s_buf s_start s_end s_err]. f_equal; [|rewrite len_nil; lia].
  unfold overlay. rewrite firstn_nil. cbn [length skipn app]. apply firstn_skipn.
Qed.
Lemma empties : forall n left s post fin, (left < n)%nat -> exists r', read_loop left s (mkReader (repeat [] n ++ post) fin false) = (setErr s NoProgress, r').
Proof.
  intros n. induction n as [|n IH]; intros left s post fin L; [lia|]. destruct left as [|left]; cbn [read_loop conn_read r_chunks r_final r_with repeat app];
    replace (len [] <=? len (s_buf s) - s_end s) with true by (symmetry; apply N.leb_le; rewrite len_nil; lia); change (0 <? len []) with false; rewrite store_nil; cbn iota.
  - destruct (repeat [] n ++ post); cbn iota; eexists; reflexivity.
  - destruct (IH left s post fin) as (r' & Q); [lia|]. exists r'. destruct (repeat [] n ++ post); exact Q.
Qed.
Lemma loop_sim : forall left s chunks post fin, (left <= 100)%nat -> s_err s = None ->
  let '(s1, r1) := read_loop left s (mkReader chunks NoProgress false) in
  exists r2, read_loop left s (stalled chunks post fin) = (s1, r2) /\ (rel r1 r2 \/ broken s1 = true).
Proof.
  induction left as [|left IH]; intros s chunks post fin L E; destruct chunks as [|c chunks].
  1: destruct (empties 101 0 s post fin) as (r' & Q); [lia|].
  3: destruct (empties 101 (S left) s post fin) as (r' & Q); [lia|].
  1,3: cbn [read_loop conn_read r_chunks r_final]; rewrite store_nil;
    exists r'; split; [exact Q|right; unfold broken, setErr; cbn [s_err]; rewrite E; reflexivity].
  all: cbn [read_loop conn_read r_chunks r_final r_with stalled app]; fold (stalled chunks post fin);
    destruct (len c <=? len (s_buf s) - s_end s) eqn:Sp; cbn iota;
    replace (match chunks with [] => None | _ :: _ => None end) with (@None tcp_error) by (destruct chunks; reflexivity);
    replace (match chunks ++ repeat [] 101 ++ post with [] => None | _ :: _ => None end) with (@None tcp_error) by (destruct (chunks ++ repeat [] 101 ++ post); reflexivity).
  1-4: match goal with |- context [0 <? len ?d] => destruct (0 <? len d) eqn:Ld end.
  - eexists. split; [reflexivity|left]. exists chunks, post, fin. auto.
  - eexists. split; [reflexivity|right]. unfold broken, setErr, store; cbn [s_err]. rewrite E. reflexivity.
  - eexists. split; [reflexivity|left]. exists (skipn (N.to_nat (len (s_buf s) - s_end s)) c :: chunks), post, fin. auto.
  - eexists. split; [reflexivity|right]. unfold broken, setErr, store; cbn [s_err]. rewrite E. reflexivity.
  - eexists. split; [reflexivity|left]. exists chunks, post, fin. auto.
  - apply (IH (store s c) chunks post fin); [lia|exact E].
  - eexists. split; [reflexivity|left]. exists (skipn (N.to_nat (len (s_buf s) - s_end s)) c :: chunks), post, fin. auto.
  - apply (IH (store s (firstn (N.to_nat (len (s_buf s) - s_end s)) c)) (skipn (N.to_nat (len (s_buf s) - s_end s)) c :: chunks) post fin); [lia|exact E].
Qed.

(** A scanner with an error does not read again. *)
Lemma scan_broken : forall fuel s r, broken s = true -> Scan fuel s r = match fuel with O => None | S _ => Some (None, mkScanner (s_old s) (s_buf s) 0 0 (s_err s), r) end.
Proof.
  intros [|fuel] s r B; [reflexivity|]. unfold broken in B. cbn [Scan]. destruct (s_err s) eqn:E; [|discriminate B]. rewrite orb_true_r. cbn [doSplit]. cbn [s_err s_old s_buf]. reflexivity.
Qed.
Lemma scan_sim : forall fuel s r1 r2, rel r1 r2 -> s_err s = None ->
  match Scan fuel s r1 with
  | None => Scan fuel s r2 = None
  | Some (v, s', r1') => exists r2', Scan fuel s r2 = Some (v, s', r2') /\ (rel r1' r2' /\ s_err s' = None \/ v = None)
  end.
Proof.
  induction fuel as [|fuel IH]; intros s r1 r2 Rl E; [reflexivity|]. cbn [Scan]. rewrite E. cbn iota. rewrite orb_false_r.
  assert (More : forall s, s_err s = None ->
    match (match grow (shift s) with None => Some (None, setErr (shift s) TooLong, r1) | Some s => let '(s, r) := read_loop maxConsecutiveEmptyReads s r1 in Scan fuel s r end) with
    | None => (match grow (shift s) with None => Some (None, setErr (shift s) TooLong, r2) | Some s => let '(s, r) := read_loop maxConsecutiveEmptyReads s r2 in Scan fuel s r end) = None
    | Some (v, s', r1') => exists r2', (match grow (shift s) with None => Some (None, setErr (shift s) TooLong, r2) | Some s => let '(s, r) := read_loop maxConsecutiveEmptyReads s r2 in Scan fuel s r end) = Some (v, s', r2') /\
        (rel r1' r2' /\ s_err s' = None \/ v = None)
    end).
  { clear s E. intros s E. destruct (grow (shift s)) as [s1|] eqn:G; [|exists r2; auto].
    assert (E1 : s_err s1 = None).
    { unfold grow in G. assert (Es : s_err (shift s) = None) by (unfold shift; destruct (_ && _); exact E). destruct (s_end (shift s) =? len (s_buf (shift s))); [destruct (maxBuffSize <=? _); [discriminate G|]|]; injection G as <-; exact Es. }
    destruct Rl as (chunks & post & fin & -> & ->). assert (X := loop_sim maxConsecutiveEmptyReads s1 chunks post fin (le_n _) E1).
    destruct (read_loop maxConsecutiveEmptyReads s1 (mkReader chunks NoProgress false)) as (s2 & r1'). destruct X as (r2' & -> & [X|X]).
    - destruct (s_err s2) eqn:E2; [|apply IH; auto]. assert (B : broken s2 = true) by (unfold broken; rewrite E2; reflexivity). rewrite !scan_broken by exact B. destruct fuel; [reflexivity|]. eexists. split; [reflexivity|]. right. reflexivity.
    - rewrite !scan_broken by exact X. destruct fuel; [reflexivity|]. eexists. split; [reflexivity|]. right. reflexivity. }
  destruct (s_start s <? s_end s); [|apply More, E].
  destruct (doSplit (data_of s) false) as [[adv [l|]]|e|]; [exists r2; auto|apply (More (mkScanner (s_old s) (s_buf s) (s_start s + adv) (s_end s) None)); reflexivity|exists r2; auto|reflexivity].
Qed.
Lemma start_sim : forall fuel s r1 r2, rel r1 r2 -> s_err s = None -> start_loop fuel s r1 = start_loop fuel s r2.
Proof.
  induction fuel as [|fuel IH]; intros s r1 r2 Rl E; [reflexivity|]. cbn [start_loop]. unfold tcp_read, decoder_read. assert (X := scan_sim (S fuel) s r1 r2 Rl E).
  destruct (Scan (S fuel) s r1) as [[[v s'] r1']|]; [|rewrite X; reflexivity]. destruct X as (r2' & -> & X).
  destruct v as [t|]; [|reflexivity]. destruct X as [(X & E')|X]; [|discriminate X].
  destruct (v_len _ <? FrameHeaderLen); [reflexivity|]. destruct (frame_parse _) as [[f|]|e|]; try reflexivity; [rewrite (IH s' r1' r2' X E'); reflexivity|destruct e].
Qed.
Theorem stall_proof : forall chunks post fin fs e, no_stall chunks -> wf (concat chunks) ->
  (reads_all (mkReader (chunks ++ repeat [] 101 ++ post) fin false) fs e <-> reads NoProgress (concat chunks) fs e).
Proof.
  intros chunks post fin fs e N W. rewrite <- (stream_iff chunks NoProgress fs e N W). unfold reads_all.
  assert (X : forall fuel, start_loop fuel new_scanner (mkReader chunks NoProgress false) = start_loop fuel new_scanner (mkReader (chunks ++ repeat [] 101 ++ post) fin false)) by (intro fuel; apply start_sim; [exists chunks, post, fin; auto|reflexivity]).
  split; intros (k & H); exists k; intros fuel L; [rewrite X|rewrite <- X]; apply H, L.
Qed.
