(** Lemmas about the example components. *)
From Coq Require Import String List NArith ZArith Lia Bool ZifyBool ZifyNat ZifyN Permutation Sorted.
From Verif Require Import Base BaseLemmas FramesSpec OperationsModel MsgpackModel MsgpackSpec MsgpackClient MsgpackIOProofs MsgpackProofs TransformModel TransformSpec TransformProofs
  StubSpec StubProofs PortModel PortSpec PortProofs ComponentModel ComponentSpec.
Import ListNotations.
Open Scope N_scope.
Local Open Scope list_scope.

Lemma bytes_equal_dec : forall a b, bytes_equal a b = if list_eq_dec N.eq_dec a b then true else false.
Proof. exact bytes_eqb_dec. Qed.

(** ** Metadata *)
Lemma addressed_decode : forall md p m, addressed md p m -> exists rest, PortDecode md = Ret (mkPort p rest m m).
Proof. intros md p m (fl & rest & -> & L & <-). exists rest. apply decode_spec. exact L. Qed.

Lemma decode_addressed : forall md p, wf md -> PortDecode md = Ret p -> addressed md (p_port p) (p_next p) /\ p_complete p = p_next p.
Proof.
  intros md p W H. apply decode_iff in H as (fl & F & E & L & C & N); [|exact W]. split; [|congruence].
  exists fl, (p_data p). repeat split; auto.
Qed.
Lemma addressed_fun : forall md p m p' m', addressed md p m -> addressed md p' m' -> p = p' /\ m = m'.
Proof.
  intros md p m p' m' A B. apply addressed_decode in A as (r & A). apply addressed_decode in B as (r' & B).
  rewrite A in B. injection B as -> _ ->. auto.
Qed.

Lemma port_out_ok : forall port n c, len port <= 65535 -> n || c = true -> port_out port n c = Ret (port_bytes 1 port []).
Proof.
  intros port n c L H. unfold port_out. rewrite encode_spec. cbn [p_port p_data p_complete p_next].
  rewrite orb_comm, H. rewrite N.mod_small by lia. reflexivity.
Qed.

(** ** Encodings *)
Lemma str_len : forall s, len (str_bytes s) <= len s + 5.
Proof.
  intros s. unfold str_bytes. cbn [scal_mv mv_bytes]. rewrite len_app.
  assert (len (str_head (short_len 32 true (len s)) (len s)) <= 5).
  { unfold str_head. destruct (short_len _ _ _); rewrite ?len_cons, ?be_len; cbn; lia. }
  lia.
Qed.
Lemma holds_ok : forall s, holds s -> scal_ok (SStr s).
Proof. intros s [L W]. split; [|exact W]. change (2^32) with 4294967296. change (2^31) with 2147483648 in L. lia. Qed.
Lemma string_encode : forall s, holds s -> transform_encode (SStr s) = Ret (str_bytes s).
Proof.
  intros s H. rewrite transform_bytes; [cbn [scal_excess]; apply f_equal; apply app_nil_r|apply holds_ok; exact H|].
  change (mv_bytes (scal_mv (SStr s))) with (str_bytes s). cbn [scal_excess]. pose proof (str_len s). destruct H as [L _].
  change (2^32) with 4294967296. change (2^31) with 2147483648 in L. lia.
Qed.
Lemma count_calls : forall w c, calls_bytes (struct_calls count_schema (count_record (w, c))) = count_bytes w c.
Proof.
  intros w c. unfold struct_calls, count_schema. cbn [flat_map fst app].
  change (count_record (w, c) (name "word")) with (VScal (SStr w)). change (count_record (w, c) (name "count")) with (VScal (SU64 c)).
  cbn [field_calls app]. unfold calls_bytes. cbn [flat_map prim_bytes]. unfold count_bytes. rewrite app_nil_r. reflexivity.
Qed.
Lemma count_excess : forall w c, calls_excess (struct_calls count_schema (count_record (w, c))) = 0.
Proof. reflexivity. Qed.
Lemma u64_len : forall c, c < 2^64 -> len (mv_bytes (scal_mv (SU64 c))) <= 9.
Proof.
  intros c L. cbn [scal_mv mv_bytes]. unfold int_bytes. destruct (short_unsigned c); rewrite ?len_cons, ?be_len; cbn; try lia.
Qed.
Lemma count_callable : forall w c, holds w -> c < 2^64 -> callable count_schema (count_record (w, c)).
Proof.
  intros w c H L. split; [|split].
  - split; [|split; [reflexivity|]].
    + repeat constructor; cbn; intuition discriminate.
    + repeat (apply Forall_cons; [split; [reflexivity|apply wfb_wf; reflexivity]|]). apply Forall_nil.
  - unfold record_ok, count_schema. repeat (apply Forall_cons || apply Forall_nil); cbn [fst snd].
    + change (field_ok (FScal KStr) (VScal (SStr w))). split; [reflexivity|apply holds_ok; exact H].
    + change (field_ok (FScal KU64) (VScal (SU64 c))). split; [reflexivity|exact L].
  - rewrite count_calls, count_excess. unfold count_bytes. rewrite !len_app. pose proof (str_len w). pose proof (u64_len c L).
    destruct H as [H _]. change (len [130]) with 1. change (len (str_bytes (name "word"))) with 5. change (len (str_bytes (name "count"))) with 6.
    change (2^32) with 4294967296. change (2^31) with 2147483648 in H. lia.
Qed.
Lemma count_encode : forall w c, holds w -> c < 2^64 -> codec_encode count_schema (count_record (w, c)) = Ret (count_bytes w c).
Proof.
  intros w c H L. rewrite (codec_bytes (fun _ => None)) by (apply count_callable; assumption). rewrite count_calls, count_excess. cbn [N.to_nat repeat].
  rewrite app_nil_r. reflexivity.
Qed.

(** ** Process *)
Lemma ignored_in : forall w, ignored w = true <-> In w ignored_words.
Proof.
  intros w. unfold ignored. rewrite existsb_exists. split.
  - intros (x & I & E). apply bytes_eqb in E. subst. exact I.
  - intro I. exists w. split; [exact I|]. apply bytes_eqb. reflexivity.
Qed.

Section Words.
Variable lower : bytes -> bytes.

Definition total (m : list (bytes * N)) (w : bytes) : N := fold_right (fun e n => (if list_eq_dec N.eq_dec w (fst e) then snd e else 0) + n) 0 m.

Lemma count_word_keys : forall m w v, In v (map fst (count_word m w)) <-> In v (map fst m) \/ v = w.
Proof.
  induction m as [|[u c] m IH]; intros w v; cbn [count_word].
  - cbn. intuition.
  - rewrite bytes_equal_dec. destruct (list_eq_dec N.eq_dec w u) as [->|N]; cbn [map fst In].
    + intuition.
    + rewrite IH. intuition.
Qed.
Lemma count_word_nodup : forall m w, NoDup (map fst m) -> NoDup (map fst (count_word m w)).
Proof.
  induction m as [|[u c] m IH]; intros w ND; cbn [count_word].
  - repeat constructor. cbn. tauto.
  - cbn [map fst] in ND. inversion ND as [|? ? N1 N2]; subst. rewrite bytes_equal_dec. destruct (list_eq_dec N.eq_dec w u) as [->|N]; cbn [map fst].
    + constructor; assumption.
    + constructor; [|apply IH; assumption]. rewrite count_word_keys. intros [I|E]; [contradiction|congruence].
Qed.
Lemma count_word_in : forall m w v c, NoDup (map fst m) -> In (v, c) (count_word m w) <->
  (v <> w /\ In (v, c) m) \/ (v = w /\ ((exists c0, In (w, c0) m /\ c = (c0 + 1) mod 2^64) \/ (~ In w (map fst m) /\ c = 1))).
Proof.
  induction m as [|[u k] m IH]; intros w v c ND; cbn [count_word].
  - cbn. split.
    + intros [E|[]]. injection E as <- <-. right. split; [reflexivity|]. right. auto.
    + intros [[_ []]|(-> & [(c0 & [] & _)|(_ & ->)])]. left. reflexivity.
  - cbn [map fst] in ND. inversion ND as [|? ? N1 N2]; subst. rewrite bytes_equal_dec. destruct (list_eq_dec N.eq_dec w u) as [->|N]; cbn [In map fst].
    + split.
      * intros [E|I].
        -- injection E as <- <-. right. split; [reflexivity|]. left. exists k. auto.
        -- left. split; [|right; exact I]. intros ->. apply N1. apply (in_map fst) in I. exact I.
      * intros [(D & [E|I])|(-> & [(c0 & [E|I] & ->)|(X & ->)])].
        -- injection E as <- <-. contradiction.
        -- right. exact I.
        -- injection E as <-. left. reflexivity.
        -- exfalso. apply N1. apply (in_map fst) in I. exact I.
        -- exfalso. apply X. left. reflexivity.
    + rewrite IH by assumption. split.
      * intros [E|[(D & I)|(-> & [(c0 & I & ->)|(X & ->)])]].
        -- injection E as <- <-. left. split; [congruence|left; reflexivity].
        -- left. auto.
        -- right. split; [reflexivity|]. left. exists c0. auto.
        -- right. split; [reflexivity|]. right. split; [|reflexivity]. intros [E|I]; [congruence|contradiction].
      * intros [(D & [E|I])|(-> & [(c0 & [E|I] & ->)|(X & ->)])].
        -- left. exact E.
        -- right. left. auto.
        -- injection E as E _. congruence.
        -- right. right. split; [reflexivity|]. left. exists c0. auto.
        -- right. right. split; [reflexivity|]. right. split; [|reflexivity]. intro I. apply X. right. exact I.
Qed.

Lemma occ_app : forall w a b, occurrences w (a ++ b) = occurrences w a + occurrences w b.
Proof. intros w a b. induction a as [|x a IH]; cbn [occurrences app]; [lia|]. rewrite IH. lia. Qed.
Lemma occ_pos : forall w l, 0 < occurrences w l <-> In w l.
Proof.
  intros w l. induction l as [|x l IH]; cbn [occurrences In]; [lia|].
  destruct (list_eq_dec N.eq_dec w x) as [->|N]; [split; [auto|lia]|]. rewrite N.add_0_l, IH. split; [auto|intros [->|H]; congruence].
Qed.

Lemma words_inv : forall words, let m := fold_left (on_word lower) words [] in
  NoDup (map fst m) /\
  (forall w c, In (w, c) m <-> ~ In w ignored_words /\ In w (map lower words) /\ c = occurrences w (map lower words) mod 2^64).
Proof.
  intros words. induction words as [|x words IH] using rev_ind; intros m.
  - split; [constructor|]. intros w c. cbn. tauto.
  - unfold m. rewrite fold_left_app. cbn [fold_left]. set (m0 := fold_left (on_word lower) words []) in *. cbv zeta in IH. destruct IH as [ND IH].
    assert (KEY : forall w, In w (map fst m0) <-> ~ In w ignored_words /\ In w (map lower words)).
    { intros w. split.
      - intro I. apply in_map_iff in I as ([v c] & E & I). cbn in E. subst v. apply IH in I. tauto.
      - intros [A B]. change w with (fst (w, occurrences w (map lower words) mod 2^64)). apply in_map. apply IH. auto. }
    rewrite map_app. cbn [map]. unfold on_word. destruct (ignored (lower x)) eqn:G.
    + apply ignored_in in G. split; [exact ND|]. intros w c. rewrite IH, occ_app, in_app_iff. cbn [In occurrences].
      destruct (list_eq_dec N.eq_dec w (lower x)) as [->|N]; [tauto|]. rewrite !N.add_0_r.
      split; [tauto|intros (A & [B|[B|[]]] & C); [auto|congruence]].
    + assert (G' : ~ In (lower x) ignored_words) by (rewrite <- ignored_in, G; discriminate).
      split; [apply count_word_nodup; exact ND|]. intros w c. rewrite count_word_in by exact ND. rewrite occ_app, in_app_iff. cbn [In occurrences].
      destruct (list_eq_dec N.eq_dec w (lower x)) as [->|N].
      * rewrite N.add_0_r. split.
        -- intros [(D & _)|(_ & [(c0 & I & ->)|(X & ->)])]; [congruence| |].
           ++ apply IH in I as (_ & I & ->). split; [exact G'|]. split; [auto|]. rewrite N.add_mod_idemp_l by discriminate. reflexivity.
           ++ split; [exact G'|]. split; [auto|].
              assert (~ In (lower x) (map lower words)) as Z by (intro I; apply X; apply KEY; auto).
              rewrite <- occ_pos in Z. replace (occurrences (lower x) (map lower words)) with 0 by lia. reflexivity.
        -- intros (_ & _ & ->). right. split; [reflexivity|].
           destruct (in_dec (list_eq_dec N.eq_dec) (lower x) (map lower words)) as [I|Z].
           ++ left. exists (occurrences (lower x) (map lower words) mod 2^64). split; [apply IH; auto|]. rewrite N.add_mod_idemp_l by discriminate. reflexivity.
           ++ right. split; [intro I; apply KEY in I as [_ I]; contradiction|].
              rewrite <- occ_pos in Z. replace (occurrences (lower x) (map lower words)) with 0 by lia. reflexivity.
      * rewrite !N.add_0_r, IH. split.
        -- intros [(_ & A & B & C)|(E & _)]; [auto|congruence].
        -- intros (A & [B|[B|[]]] & C); [auto|congruence].
Qed.

Lemma process_spec : forall order words, sorts order ->
  NoDup (map fst (process lower order words)) /\
  (forall w c, In (w, c) (process lower order words) <-> ~ In w ignored_words /\ In w (map lower words) /\ c = occurrences w (map lower words) mod 2^64) /\
  StronglySorted (fun a b => snd b <= snd a) (process lower order words).
Proof.
  intros order words S. unfold process. set (m := fold_left (on_word lower) words []). destruct (words_inv words) as [ND I]. fold m in ND, I. destruct (S m) as [P O].
  split; [|split; [|exact O]].
  - eapply Permutation_NoDup; [|exact ND]. apply Permutation_map. apply Permutation_sym. exact P.
  - intros w c. rewrite <- I. split; apply Permutation_in; [exact P|apply Permutation_sym; exact P].
Qed.
End Words.

Lemma panic_bind : forall {E X Y} (m : outcome E X) (k : X -> outcome E Y), m = Panic -> (do x <- m ; k x) = Panic.
Proof. intros E X Y m k ->. reflexivity. Qed.

(** ** wordfrequency *)
Section Freq.
Variable f64to32 : N -> N.
Variable pt : bytes -> option gtime.
Variable lower : bytes -> bytes.
Variable order : list (bytes * N) -> list (bytes * N).
Hypothesis SO : sorts order.
Notation decode := (decode_string f64to32 pt).
Notation steps := (freq_steps f64to32 pt lower order).
Notation step1 := (freq_step f64to32 pt lower order).
Notation surv := (survives (name "words") decode).

Definition entries_ok (m : list (bytes * N)) : Prop := Forall (fun e => holds (fst e) /\ snd e < 2^64) m.

Lemma on_counts_ok : forall l k, entries_ok l -> on_counts k l =
  Ret (if k_closed k then k else mkSink false (k_seen k ++ map (fun e => message (name "counts") (count_bytes (fst e) (snd e))) l)).
Proof.
  induction l as [|[w c] l IH]; intros k OK; cbn [on_counts map].
  - destruct k as [[] seen]; cbn; [reflexivity|]. rewrite app_nil_r. reflexivity.
  - inversion OK as [|? ? [H L] OK']; subst. cbn [fst snd] in *. unfold on_count. rewrite count_encode by assumption.
    rewrite port_out_ok by (reflexivity || (cbn; lia)). cbn [bind]. rewrite IH by assumption. unfold sink_next.
    destruct k as [[] seen]; cbn [k_closed k_seen]; [reflexivity|]. rewrite <- app_assoc. reflexivity.
Qed.

Lemma complete_ok : forall s, entries_ok (w_map s) -> words_complete order s =
  Ret (if w_words s then s else mkFreq (w_in s) true (w_map s)
        (if k_closed (w_sink s) then w_sink s else
         mkSink true (k_seen (w_sink s) ++ map (fun e => message (name "counts") (count_bytes (fst e) (snd e))) (order (w_map s)) ++ [end_message; OComplete]))).
Proof.
  intros s OK. unfold words_complete. destruct (w_words s); [reflexivity|].
  rewrite on_counts_ok.
  2:{ unfold entries_ok in *. rewrite Forall_forall in *. intros e I. apply OK. eapply Permutation_in; [apply SO|exact I]. }
  cbn [bind]. rewrite port_out_ok by (reflexivity || (cbn; lia)). cbn [bind]. destruct (w_sink s) as [[] seen]; cbn [k_closed k_seen].
  - reflexivity.
  - unfold sink_next, sink_complete. cbn [k_closed k_seen]. rewrite <- !app_assoc. reflexivity.
Qed.

Lemma count_word_ok : forall m w, holds w -> entries_ok m -> entries_ok (count_word m w).
Proof.
  induction m as [|[u c] m IH]; intros w H OK; cbn [count_word].
  - constructor; [|constructor]. split; [exact H|reflexivity].
  - inversion OK as [|? ? [A B] OK']; subst. destruct (bytes_equal w u).
    + constructor; [|exact OK']. split; [exact A|]. cbn [snd]. apply N.mod_lt. discriminate.
    + constructor; [split; assumption|]. apply IH; assumption.
Qed.

(** What an event may do: nothing to what a closed subscriber has seen. *)
Definition keeps (s s' : freq) : Prop := k_closed (w_sink s) = true -> k_closed (w_sink s') = true /\ k_seen (w_sink s') = k_seen (w_sink s).
Lemma keeps_trans : forall a b c, keeps a b -> keeps b c -> keeps a c.
Proof. unfold keeps. intros a b c A B C. destruct (A C) as [D E]. destruct (B D) as [F G]. split; congruence. Qed.

Lemma complete_step : forall s, entries_ok (w_map s) -> exists s', words_complete order s = Ret s' /\ entries_ok (w_map s') /\ keeps s s' /\ w_in s' = w_in s.
Proof.
  intros s OK. rewrite complete_ok by exact OK. eexists. split; [reflexivity|]. destruct (w_words s); cbn [w_map w_in].
  - split; [exact OK|]. split; [intro; auto|reflexivity].
  - split; [exact OK|]. split; [|reflexivity]. intro C. cbn [w_sink]. rewrite C. auto.
Qed.

Definition fits_word (w : bytes) : bytes := lower w.

Lemma step_total : forall s e, event_wf e -> entries_ok (w_map s) -> (forall d md a, e = INext d md -> decode d = Ret a -> holds (lower a)) ->
  (w_in s = false /\ ~ surv [e] /\ step1 s e = Panic) \/
  ((w_in s = true \/ surv [e]) /\ exists s', step1 s e = Ret s' /\ entries_ok (w_map s') /\ keeps s s' /\
     w_in s' = w_in s || (match e with IComplete | IError => true | _ => false end)).
Proof.
  intros s e W OK SH. destruct e as [d md| | |]; cbn [freq_step].
  - destruct (w_in s) eqn:IN.
    { right. split; [auto|]. exists s. rewrite IN. split; [reflexivity|]. split; [exact OK|]. split; [intro; auto|reflexivity]. }
    destruct W as [W1 W2]. destruct (PortDecode md) as [p|x|] eqn:D; [|destruct x|].
    + pose proof (decode_addressed _ _ W2 D) as [AD CN]. rewrite bytes_equal_dec. rewrite CN.
      destruct (list_eq_dec N.eq_dec (p_port p) (name "words")) as [E|NE].
      2:{ right. split; [right; split; [|exact I]; exists (p_port p), (p_next p); split; [exact AD|congruence]|]. exists s. rewrite IN. split; [reflexivity|]. split; [exact OK|]. split; [intro; auto|reflexivity]. }
      destruct (p_next p) eqn:NX.
      2:{ right. split; [right; split; [|exact I]; exists (p_port p), false; split; [exact AD|congruence]|]. exists s. rewrite IN. split; [reflexivity|]. split; [exact OK|]. split; [intro; auto|reflexivity]. }
      destruct (decode d) as [w|x|] eqn:DE.
      * right. split; [right; split; [|exact I]; exists (p_port p), true; split; [exact AD|congruence]|].
        assert (OK' : entries_ok (w_map (words_next lower s w))).
        { unfold words_next. destruct (w_words s); [exact OK|]. cbn [w_map]. unfold on_word. destruct (ignored (lower w)); [exact OK|].
          apply count_word_ok; [|exact OK]. eapply SH; [reflexivity|exact DE]. }
        destruct (complete_step _ OK') as (s' & R & OK2 & K & IN'). exists s'. split; [exact R|]. split; [exact OK2|].
        assert (k_closed (w_sink (words_next lower s w)) = k_closed (w_sink s) /\ k_seen (w_sink (words_next lower s w)) = k_seen (w_sink s) /\ w_in (words_next lower s w) = w_in s) as (E1 & E2 & E3)
          by (unfold words_next; destruct (w_words s); auto).
        split; [|rewrite IN', E3, IN; reflexivity]. unfold keeps in *. rewrite E1, E2 in K. exact K.
      * right. split; [right; split; [|exact I]; exists (p_port p), true; split; [exact AD|congruence]|]. eexists. split; [reflexivity|].
        unfold freq_with. cbn [w_map w_in]. split; [exact OK|]. split; [|rewrite IN; reflexivity]. intro C. cbn [w_sink]. unfold sink_error. rewrite C. auto.
      * left. split; [reflexivity|]. split; [|reflexivity]. intros [(p' & m' & AD' & K) _]. rewrite E in AD. destruct (addressed_fun _ _ _ _ _ AD AD') as [<- <-].
        apply K; auto.
    + left. split; [reflexivity|]. split; [|reflexivity]. intros [(p' & m' & AD' & _) _]. apply addressed_decode in AD' as (r & R). congruence.
  - right. split; [right; exact I|]. destruct (w_in s) eqn:IN.
    + exists s. rewrite IN. split; [reflexivity|]. split; [exact OK|]. split; [intro; auto|reflexivity].
    + destruct (complete_step (mkFreq true (w_words s) (w_map s) (w_sink s)) OK) as (s' & R & OK2 & K & IN'). exists s'. split; [exact R|]. split; [exact OK2|]. split; [exact K|exact IN'].
  - right. split; [right; exact I|]. eexists. split; [reflexivity|]. cbn [w_map w_in]. split; [exact OK|]. split; [intro; auto|rewrite orb_true_r; reflexivity].
  - right. split; [right; exact I|]. eexists. split; [reflexivity|]. unfold freq_with. cbn [w_map w_in]. split; [exact OK|]. split; [|rewrite orb_false_r; reflexivity].
    intros C. cbn. auto.
Qed.

Notation shorts := (short decode lower).

Lemma short_tail : forall e l, shorts (e :: l) -> shorts l.
Proof. intros e l S d md a I. apply (S d md a). right. exact I. Qed.
Lemma short_head : forall e l, shorts (e :: l) -> forall d md a, e = INext d md -> decode d = Ret a -> holds (lower a).
Proof. intros e l S d md a -> D. apply (S d md a); [left; reflexivity|exact D]. Qed.
Lemma surv_cons : forall e l, surv (e :: l) <-> surv [e] /\ match e with IComplete | IError => True | _ => surv l end.
Proof. intros [d md| | |] l; cbn [survives]; tauto. Qed.

Lemma steps_total : forall l s, Forall event_wf l -> entries_ok (w_map s) -> shorts l ->
  (w_in s = false /\ ~ surv l /\ steps s l = Panic) \/
  ((w_in s = true \/ surv l) /\ exists s', steps s l = Ret s' /\ entries_ok (w_map s') /\ keeps s s' ).
Proof.
  induction l as [|e l IH]; intros s W OK SH; cbn [freq_steps].
  - right. split; [right; exact I|]. exists s. split; [reflexivity|]. split; [exact OK|]. intro; auto.
  - inversion W as [|? ? W1 W2]; subst. destruct (step_total s e W1 OK (short_head e l SH)) as [(A & B & C)|(A & s1 & R & OK1 & K1 & IN1)].
    + left. split; [exact A|]. split; [|apply panic_bind; exact C]. rewrite surv_cons. tauto.
    + rewrite R. cbn [bind]. destruct (IH s1 W2 OK1 (short_tail e l SH)) as [(A2 & B2 & C2)|(A2 & s2 & R2 & OK2 & K2)].
      * left. rewrite A2 in IN1. symmetry in IN1. apply orb_false_iff in IN1 as [IN1 NE]. split; [exact IN1|]. split; [|exact C2].
        rewrite surv_cons. destruct e; try discriminate; tauto.
      * right. split; [|exists s2; split; [exact R2|]; split; [exact OK2|eapply keeps_trans; eassumption]].
        destruct A as [A|A]; [left; exact A|]. destruct A2 as [A2|A2].
        -- rewrite A2 in IN1. symmetry in IN1. apply orb_true_iff in IN1 as [IN1|NE]; [left; exact IN1|]. right. rewrite surv_cons. split; [exact A|]. destruct e; try discriminate; exact I.
        -- right. rewrite surv_cons. split; [exact A|]. destruct e; auto.
Qed.

Theorem freq_crash : forall l, Forall event_wf l -> shorts l -> (word_frequency f64to32 pt lower order l = Panic <-> ~ surv l).
Proof.
  intros l W S. unfold word_frequency. destruct (steps_total l freq_start W (Forall_nil _) S) as [(_ & B & C)|([A|A] & s' & R & _)].
  - split; [auto|]. intros _. apply panic_bind. exact C.
  - discriminate.
  - rewrite R. cbn [bind]. split; [discriminate|contradiction].
Qed.

Lemma steps_app : forall a b s, steps s (a ++ b) = do s' <- steps s a ; steps s' b.
Proof.
  induction a as [|e a IH]; intros b s; cbn [freq_steps app bind]; [reflexivity|]. destruct (step1 s e); cbn [bind]; [apply IH|reflexivity|reflexivity].
Qed.

Lemma idle_step : forall s e, idle (name "words") e -> step1 s e = Ret s.
Proof.
  intros s [d md| | |] H; cbn [idle] in H; try contradiction. destruct H as (p & m & AD & H). apply addressed_decode in AD as (r & AD).
  cbn [freq_step]. destruct (w_in s); [reflexivity|]. rewrite AD. cbn [p_port p_next p_complete]. rewrite bytes_equal_dec.
  destruct (list_eq_dec N.eq_dec p (name "words")) as [->|NE]; [|reflexivity]. destruct H as [H| ->]; [congruence|reflexivity].
Qed.
Lemma idle_steps : forall l s, Forall (idle (name "words")) l -> steps s l = Ret s.
Proof. induction l as [|e l IH]; intros s F; [reflexivity|]. inversion F; subst. cbn [freq_steps]. rewrite idle_step by assumption. cbn [bind]. apply IH. assumption. Qed.

Lemma ends_with : forall pre e post s1 seen, Forall (idle (name "words")) pre -> step1 freq_start e = Ret s1 ->
  entries_ok (w_map s1) -> (w_in s1 = true \/ surv post) -> Forall event_wf post -> shorts post -> k_closed (w_sink s1) = true -> k_seen (w_sink s1) = seen ->
  word_frequency f64to32 pt lower order (pre ++ e :: post) = Ret seen.
Proof.
  intros pre e post s1 seen F R OK SV W SH CL SN. unfold word_frequency. rewrite steps_app, idle_steps by exact F. cbn [bind freq_steps]. rewrite R. cbn [bind].
  destruct (steps_total post s1 W OK SH) as [(A & B & _)|(_ & s2 & R2 & _ & K2)].
  - destruct SV; congruence.
  - rewrite R2. cbn [bind]. destruct (K2 CL) as [_ ->]. congruence.
Qed.

(** A marked message for the port. *)
Lemma word_step : forall d md w, addressed md (name "words") true -> decode d = Ret w -> holds (lower w) ->
  exists s1, step1 freq_start (INext d md) = Ret s1 /\ entries_ok (w_map s1) /\ k_closed (w_sink s1) = true /\
  k_seen (w_sink s1) = (if ignored (lower w) then [] else [message (name "counts") (count_bytes (lower w) 1)]) ++ [end_message; OComplete].
Proof.
  intros d md w AD DE H. apply addressed_decode in AD as (r & AD). cbn [freq_step]. rewrite AD. cbn [freq_start w_in p_port p_next p_complete].
  rewrite bytes_equal_dec. destruct (list_eq_dec N.eq_dec (name "words") (name "words")) as [_|NE]; [|congruence]. rewrite DE.
  unfold words_next. cbn [freq_start w_words w_in w_map w_sink]. unfold on_word.
  assert (O1 : forall m, (length m <= 1)%nat -> order m = m).
  { intros m L. destruct (SO m) as [P _]. destruct m as [|x [|y m]]; [apply Permutation_nil, Permutation_sym, P|apply Permutation_length_1_inv, Permutation_sym, P|cbn in L; lia]. }
  destruct (ignored (lower w)); (rewrite complete_ok; [|cbn [w_map]]); cbn [w_map w_words w_in w_sink k_closed k_seen count_word].
  - rewrite O1 by (cbn; lia). eexists. split; [reflexivity|]. split; [constructor|]. split; reflexivity.
  - constructor.
  - rewrite O1 by (cbn; lia). eexists. split; [reflexivity|]. cbn [w_map w_sink k_closed k_seen]. split; [|split; reflexivity]. constructor; [|constructor]. split; [exact H|reflexivity].
  - constructor; [|constructor]. split; [exact H|reflexivity].
Qed.
Lemma bad_step : forall d md x, addressed md (name "words") true -> decode d = Fail x ->
  step1 freq_start (INext d md) = Ret (mkFreq false false [] (mkSink true [OError x])).
Proof.
  intros d md x AD DE. apply addressed_decode in AD as (r & AD). cbn [freq_step]. rewrite AD. cbn [freq_start w_in p_port p_next p_complete].
  rewrite bytes_equal_dec. destruct (list_eq_dec N.eq_dec (name "words") (name "words")) as [_|NE]; [|congruence]. rewrite DE. reflexivity.
Qed.
Lemma end_step : exists s1, step1 freq_start IComplete = Ret s1 /\ w_map s1 = [] /\ w_in s1 = true /\ k_closed (w_sink s1) = true /\ k_seen (w_sink s1) = [end_message; OComplete].
Proof.
  cbn [freq_step freq_start w_in w_words w_map w_sink]. rewrite complete_ok by constructor. cbn [w_map w_words w_in w_sink k_closed k_seen].
  destruct (SO []) as [P _]. apply Permutation_sym, Permutation_nil in P. rewrite P. eexists. split; [reflexivity|]. repeat split.
Qed.
(** After the input has ended nothing more is seen. *)
Lemma ended_steps : forall l s, w_in s = true -> exists s', steps s l = Ret s' /\ k_seen (w_sink s') = k_seen (w_sink s).
Proof.
  induction l as [|e l IH]; intros s IN; cbn [freq_steps]; [exists s; auto|].
  assert (exists s1, step1 s e = Ret s1 /\ w_in s1 = true /\ k_seen (w_sink s1) = k_seen (w_sink s)) as (s1 & R & IN1 & E).
  { destruct e; cbn [freq_step]; rewrite ?IN; eexists; (split; [reflexivity|]); auto. }
  rewrite R. cbn [bind]. destruct (IH s1 IN1) as (s2 & R2 & E2). exists s2. split; [exact R2|congruence].
Qed.

(** What can be seen at all. *)
Definition seen_shape (seen : list oev) : Prop :=
  seen = [] \/ (exists x, seen = [OError x]) \/ seen = [end_message; OComplete] \/
  exists w, seen = [message (name "counts") (count_bytes w 1); end_message; OComplete].

Lemma shape_from : forall l s seen, Forall event_wf l -> entries_ok (w_map s) -> shorts l ->
  (s = freq_start \/ ((k_closed (w_sink s) = true \/ w_in s = true) /\ seen_shape (k_seen (w_sink s)))) ->
  (do s' <- steps s l ; Ret (k_seen (w_sink s'))) = Ret seen -> seen_shape seen.
Proof.
  intros l s seen W OK SH [->|[H SS]] E.
  - revert W SH E. induction l as [|e l IH]; intros W SH E.
    { cbn in E. injection E as <-. left. reflexivity. }
    inversion W as [|? ? W1 W2]; subst. cbn [freq_steps] in E.
    assert (K : step1 freq_start e = Ret freq_start \/ forall s1, step1 freq_start e = Ret s1 -> entries_ok (w_map s1) /\ (k_closed (w_sink s1) = true \/ w_in s1 = true) /\ seen_shape (k_seen (w_sink s1))).
    { destruct e as [d md| | |].
      - destruct W1 as [_ W1]. destruct (PortDecode md) as [p|x|] eqn:D; [|destruct x|].
        2:{ right. intros s1 R. cbn [freq_step freq_start w_in] in R. rewrite D in R. discriminate. }
        destruct (decode_addressed _ _ W1 D) as [AD _]. destruct (list_eq_dec N.eq_dec (p_port p) (name "words")) as [EQ|NE].
        2:{ left. apply idle_step. exists (p_port p), (p_next p). auto. }
        destruct (p_next p) eqn:NX.
        2:{ left. apply idle_step. exists (p_port p), false. auto. }
        right. intros s1 R. rewrite EQ in AD. destruct (decode d) as [w|x|] eqn:DE.
        + assert (HO : holds (lower w)) by (eapply (short_head _ _ SH); [reflexivity|exact DE]).
          destruct (word_step d md w AD DE HO) as (s1' & R' & OK1 & CL & SN). rewrite R in R'. injection R' as <-. split; [exact OK1|]. split; [auto|]. rewrite SN.
          destruct (ignored (lower w)); [right; right; left; reflexivity|]. right. right. right. exists (lower w). reflexivity.
        + rewrite (bad_step d md x AD DE) in R. injection R as <-. split; [constructor|]. split; [auto|]. right. left. exists x. reflexivity.
        + exfalso. clear IH E. destruct (step_total freq_start (INext d md)) as [(_ & _ & C)|([C|C] & _)];
            [inversion W; assumption|constructor|exact (short_head _ _ SH)|congruence|discriminate|].
          destruct C as [(p' & m' & AD' & K) _]. destruct (addressed_fun _ _ _ _ _ AD AD') as [<- <-]. apply K; auto.
      - right. intros s1 R. destruct end_step as (s1' & R' & M & IN & CL & SN). rewrite R in R'. injection R' as <-. rewrite M, SN. split; [constructor|]. split; [auto|]. right. right. left. reflexivity.
      - right. intros s1 R. cbn in R. injection R as <-. split; [constructor|]. split; [auto|]. left. reflexivity.
      - right. intros s1 R. cbn in R. injection R as <-. split; [constructor|]. split; [auto|]. left. reflexivity. }
    destruct K as [K|K].
    + rewrite K in E. cbn [bind] in E. apply IH; [exact W2|exact (short_tail _ _ SH)|exact E].
    + destruct (step1 freq_start e) as [s1| |]; cbn [bind] in E; [|discriminate|discriminate]. destruct (K s1 eq_refl) as (OK1 & H & SS).
      destruct H as [H|H].
      * destruct (steps_total l s1 W2 OK1 (short_tail _ _ SH)) as [(_ & _ & C)|(_ & s2 & R2 & _ & K2)].
        -- rewrite C in E. discriminate.
        -- rewrite R2 in E. cbn [bind] in E. injection E as <-. destruct (K2 H) as [_ ->]. exact SS.
      * destruct (ended_steps l s1 H) as (s2 & R2 & E2). rewrite R2 in E. cbn [bind] in E. injection E as <-. rewrite E2. exact SS.
  - destruct H as [H|H].
    + destruct (steps_total l s W OK SH) as [(_ & _ & C)|(_ & s2 & R2 & _ & K2)].
      * rewrite C in E. discriminate.
      * rewrite R2 in E. cbn [bind] in E. injection E as <-. destruct (K2 H) as [_ ->]. exact SS.
    + destruct (ended_steps l s H) as (s2 & R2 & E2). rewrite R2 in E. cbn [bind] in E. injection E as <-. rewrite E2. exact SS.
Qed.
End Freq.

(** ** Components of one value *)
Section One.
Context {A : Type} (in_port out_port : bytes) (decode : bytes -> outcome rerr A) (compute : A -> bytes).
Hypothesis OP : len out_port <= 65535.
Notation steps := (one_steps A in_port out_port decode compute).
Notation step1 := (one_step A in_port out_port decode compute).
Notation surv := (survives in_port decode).
Notation shorts := (short decode compute).

Definition okeeps (s s' : one) : Prop := k_closed (n_sink s) = true -> k_closed (n_sink s') = true /\ k_seen (n_sink s') = k_seen (n_sink s).

Lemma success_ok : forall s a, holds (compute a) -> value_success A out_port compute s a =
  Ret (if n_done s then s else mkOne (n_in s) true (if k_closed (n_sink s) then n_sink s else mkSink true (k_seen (n_sink s) ++ [message out_port (str_bytes (compute a)); OComplete]))).
Proof.
  intros s a H. unfold value_success. destruct (n_done s); [reflexivity|]. rewrite string_encode by exact H. rewrite port_out_ok by (exact OP || reflexivity). cbn [bind].
  unfold sink_next, sink_complete. destruct (n_sink s) as [[] seen]; cbn [k_closed k_seen]; [reflexivity|]. rewrite <- app_assoc. reflexivity.
Qed.

Lemma one_step_total : forall s e, event_wf e -> (forall d md a, e = INext d md -> decode d = Ret a -> holds (compute a)) ->
  (n_in s = false /\ ~ surv [e] /\ step1 s e = Panic) \/
  ((n_in s = true \/ surv [e]) /\ exists s', step1 s e = Ret s' /\ okeeps s s' /\ n_in s' = n_in s || (match e with IComplete | IError => true | _ => false end)).
Proof.
  intros s e W SH. destruct e as [d md| | |]; cbn [one_step].
  - destruct (n_in s) eqn:IN.
    { right. split; [auto|]. exists s. rewrite IN. split; [reflexivity|]. split; [intro; auto|reflexivity]. }
    destruct W as [W1 W2]. destruct (PortDecode md) as [p|x|] eqn:D; [|destruct x|].
    + pose proof (decode_addressed _ _ W2 D) as [AD _]. rewrite bytes_equal_dec.
      destruct (list_eq_dec N.eq_dec (p_port p) in_port) as [E|NE]; cbn [andb].
      2:{ right. split; [right; split; [|exact I]; exists (p_port p), (p_next p); split; [exact AD|congruence]|]. exists s. rewrite IN. split; [reflexivity|]. split; [intro; auto|reflexivity]. }
      destruct (p_next p) eqn:NX.
      2:{ right. split; [right; split; [|exact I]; exists (p_port p), false; split; [exact AD|congruence]|]. exists s. rewrite IN. split; [reflexivity|]. split; [intro; auto|reflexivity]. }
      destruct (decode d) as [a|x|] eqn:DE.
      * right. split; [right; split; [|exact I]; exists (p_port p), true; split; [exact AD|congruence]|].
        rewrite success_ok by (eapply SH; [reflexivity|exact DE]). eexists. split; [reflexivity|].
        destruct (n_done s); (split; [|cbn [n_in]; try rewrite IN; try reflexivity]); intro C; cbn [n_sink]; rewrite ?C; auto.
      * right. split; [right; split; [|exact I]; exists (p_port p), true; split; [exact AD|congruence]|]. eexists. split; [reflexivity|].
        split; [|cbn [n_in]; try rewrite IN; try reflexivity]. intro C. cbn [n_sink]. unfold sink_error. rewrite C. auto.
      * left. split; [reflexivity|]. split; [|reflexivity]. intros [(p' & m' & AD' & K) _]. rewrite E in AD. destruct (addressed_fun _ _ _ _ _ AD AD') as [<- <-].
        apply K; auto.
    + left. split; [reflexivity|]. split; [|reflexivity]. intros [(p' & m' & AD' & _) _]. apply addressed_decode in AD' as (r & R). congruence.
  - right. split; [right; exact I|]. eexists. split; [reflexivity|]. cbn [n_in]. split; [intro; auto|rewrite orb_true_r; reflexivity].
  - right. split; [right; exact I|]. eexists. split; [reflexivity|]. cbn [n_in]. split; [intro; auto|rewrite orb_true_r; reflexivity].
  - right. split; [right; exact I|]. eexists. split; [reflexivity|]. cbn [n_in]. split; [|rewrite orb_false_r; reflexivity]. intros C. cbn. auto.
Qed.

Lemma oshort_tail : forall e l, shorts (e :: l) -> shorts l.
Proof. intros e l S d md a I. apply (S d md a). right. exact I. Qed.
Lemma oshort_head : forall e l, shorts (e :: l) -> forall d md a, e = INext d md -> decode d = Ret a -> holds (compute a).
Proof. intros e l S d md a -> D. apply (S d md a); [left; reflexivity|exact D]. Qed.
Lemma osurv_cons : forall e l, surv (e :: l) <-> surv [e] /\ match e with IComplete | IError => True | _ => surv l end.
Proof. intros [d md| | |] l; cbn [survives]; tauto. Qed.

Lemma one_steps_total : forall l s, Forall event_wf l -> shorts l ->
  (n_in s = false /\ ~ surv l /\ steps s l = Panic) \/ ((n_in s = true \/ surv l) /\ exists s', steps s l = Ret s' /\ okeeps s s').
Proof.
  induction l as [|e l IH]; intros s W SH; cbn [one_steps].
  - right. split; [right; exact I|]. exists s. split; [reflexivity|]. intro; auto.
  - inversion W as [|? ? W1 W2]; subst. destruct (one_step_total s e W1 (oshort_head e l SH)) as [(B1 & B & C)|(B & s1 & R & K1 & IN1)].
    + left. split; [exact B1|]. split; [|apply panic_bind; exact C]. rewrite osurv_cons. tauto.
    + rewrite R. cbn [bind]. destruct (IH s1 W2 (oshort_tail e l SH)) as [(A2 & B2 & C2)|(A2 & s2 & R2 & K2)].
      * left. rewrite A2 in IN1. symmetry in IN1. apply orb_false_iff in IN1 as [IN1 NE]. split; [exact IN1|]. split; [|exact C2].
        rewrite osurv_cons. destruct e; try discriminate; tauto.
      * right. split; [|exists s2; split; [exact R2|]; intro C; destruct (K1 C) as [D1 E1]; destruct (K2 D1) as [D2 E2]; split; congruence].
        destruct B as [B|B]; [left; exact B|]. destruct A2 as [A2|A2].
        -- rewrite A2 in IN1. symmetry in IN1. apply orb_true_iff in IN1 as [IN1|NE]; [left; exact IN1|]. right. rewrite osurv_cons. split; [exact B|]. destruct e; try discriminate; exact I.
        -- right. rewrite osurv_cons. split; [exact B|]. destruct e; auto.
Qed.

Lemma one_crash : forall l, Forall event_wf l -> shorts l -> (one_value A in_port out_port decode compute l = Panic <-> ~ surv l).
Proof.
  intros l W S. unfold one_value. destruct (one_steps_total l one_start W S) as [(_ & B & C)|([B|B] & s' & R & _)].
  - split; [auto|]. intros _. apply panic_bind. exact C.
  - discriminate.
  - rewrite R. cbn [bind]. split; [discriminate|contradiction].
Qed.
Lemma osteps_app : forall a b s, steps s (a ++ b) = do s' <- steps s a ; steps s' b.
Proof.
  induction a as [|e a IH]; intros b s; cbn [one_steps app bind]; [reflexivity|]. destruct (step1 s e); cbn [bind]; [apply IH|reflexivity|reflexivity].
Qed.
Lemma oidle_steps : forall l s, Forall (idle in_port) l -> steps s l = Ret s.
Proof.
  induction l as [|e l IH]; intros s F; [reflexivity|]. inversion F as [|? ? H F']; subst. cbn [one_steps].
  replace (step1 s e) with (@Ret rerr one s); [cbn [bind]; apply IH; assumption|].
  destruct e as [d md| | |]; cbn [idle] in H; try contradiction. destruct H as (p & m & AD & H). apply addressed_decode in AD as (r & AD).
  cbn [one_step]. destruct (n_in s); [reflexivity|]. rewrite AD. cbn [p_port p_next]. rewrite bytes_equal_dec.
  destruct (list_eq_dec N.eq_dec p in_port) as [->|NE]; [|reflexivity]. destruct H as [H| ->]; [congruence|reflexivity].
Qed.
Lemma ended_one : forall l s, n_in s = true -> exists s', steps s l = Ret s' /\ k_seen (n_sink s') = k_seen (n_sink s).
Proof.
  induction l as [|e l IH]; intros s IN; cbn [one_steps]; [exists s; auto|].
  assert (exists s1, step1 s e = Ret s1 /\ n_in s1 = true /\ k_seen (n_sink s1) = k_seen (n_sink s)) as (s1 & R & IN1 & E).
  { destruct e; cbn [one_step]; rewrite ?IN; eexists; (split; [reflexivity|]); auto. }
  rewrite R. cbn [bind]. destruct (IH s1 IN1) as (s2 & R2 & E2). exists s2. split; [exact R2|congruence].
Qed.

(** The first marked message for the port decides. *)
Lemma one_answer : forall pre d md post seen, Forall (idle in_port) pre -> addressed md in_port true -> surv post -> Forall event_wf post -> shorts (INext d md :: post) ->
  match decode d with Ret a => seen = [message out_port (str_bytes (compute a)); OComplete] | Fail x => seen = [OError x] | Panic => False end ->
  one_value A in_port out_port decode compute (pre ++ INext d md :: post) = Ret seen.
Proof.
  intros pre d md post seen F AD SV W SH E. unfold one_value. rewrite osteps_app, oidle_steps by exact F. cbn [bind one_steps]. cbn [one_step one_start n_in n_done n_sink].
  apply addressed_decode in AD as (r & AD). rewrite AD. cbn [p_port p_next]. rewrite bytes_equal_dec. destruct (list_eq_dec N.eq_dec in_port in_port) as [_|NE]; [|congruence]. cbn [andb].
  destruct (decode d) as [a|x|] eqn:DE; [| |contradiction].
  - rewrite success_ok by (eapply (oshort_head _ _ SH); [reflexivity|exact DE]). cbn [bind one_start n_in n_done n_sink k_closed k_seen].
    match goal with |- context [steps ?s post] => destruct (one_steps_total post s W (oshort_tail _ _ SH)) as [(_ & B & _)|(_ & s2 & R & K)] end; [contradiction|].
    rewrite R. cbn [bind]. destruct (K eq_refl) as [_ ->]. subst seen. reflexivity.
  - cbn [bind]. match goal with |- context [steps ?s post] => destruct (one_steps_total post s W (oshort_tail _ _ SH)) as [(_ & B & _)|(_ & s2 & R & K)] end; [contradiction|].
    rewrite R. cbn [bind]. destruct (K eq_refl) as [_ ->]. subst seen. reflexivity.
Qed.
(** Without one nothing is ever seen, whether the input ends or not. *)
Lemma one_silent : forall pre, Forall (idle in_port) pre -> one_value A in_port out_port decode compute pre = Ret [] /\
  forall e post, e = IComplete \/ e = IError -> one_value A in_port out_port decode compute (pre ++ e :: post) = Ret [].
Proof.
  intros pre F. split.
  - unfold one_value. rewrite oidle_steps by exact F. reflexivity.
  - intros e post E. unfold one_value. rewrite osteps_app, oidle_steps by exact F. cbn [bind one_steps].
    replace (step1 one_start e) with (@Ret rerr one (mkOne true false (mkSink false []))) by (destruct E as [-> | ->]; reflexivity). cbn [bind].
    destruct (ended_one post (mkOne true false (mkSink false [])) eq_refl) as (s' & R & E2). rewrite R. cbn [bind]. rewrite E2. reflexivity.
Qed.
End One.

(** ** Values *)
Lemma string_decode : forall f64to32 pt w, holds w -> decode_string f64to32 pt (str_bytes w) = Ret w.
Proof.
  intros f64to32 pt w H. unfold decode_string.
  destruct (transform_round f64to32 pt (SStr w)) as (d & E & D).
  - apply holds_ok. exact H.
  - change (mv_bytes (scal_mv (SStr w))) with (str_bytes w). cbn [scal_excess]. pose proof (str_len w). destruct H as [H _].
    change (2^32) with 4294967296. change (2^31) with 2147483648 in H. lia.
  - rewrite string_encode in E by exact H. injection E as <-. change (kind_of (SStr w)) with KStr in D. rewrite D. reflexivity.
Qed.

Definition strings_record (l r : bytes) : env := fun n => if bytes_equal n (name "left") then VScal (SStr l) else VScal (SStr r).
Lemma strings_calls : forall l r, calls_bytes (struct_calls strings_schema (strings_record l r)) = strings_bytes l r.
Proof.
  intros l r. unfold struct_calls, strings_schema. cbn [flat_map fst app].
  change (strings_record l r (name "left")) with (VScal (SStr l)). change (strings_record l r (name "right")) with (VScal (SStr r)).
  cbn [field_calls app]. unfold calls_bytes. cbn [flat_map prim_bytes]. unfold strings_bytes. rewrite app_nil_r. reflexivity.
Qed.
Lemma strings_decode : forall f64to32 pt l r, holds l -> holds r -> len l + len r < 2^31 -> decode_strings f64to32 pt (strings_bytes l r) = Ret (l, r).
Proof.
  intros f64to32 pt l r H H' L.
  assert (CE : calls_excess (struct_calls strings_schema (strings_record l r)) = 0) by reflexivity.
  assert (SC : schema_ok strings_schema).
  { split; [|split; [reflexivity|]].
    - repeat constructor; cbn; intuition discriminate.
    - repeat (apply Forall_cons; [split; [reflexivity|apply wfb_wf; reflexivity]|]). apply Forall_nil. }
  assert (RC : record_ok strings_schema (strings_record l r)).
  { unfold record_ok, strings_schema. repeat (apply Forall_cons || apply Forall_nil); cbn [fst snd].
    - change (field_ok (FScal KStr) (VScal (SStr l))). split; [reflexivity|apply holds_ok; exact H].
    - change (field_ok (FScal KStr) (VScal (SStr r))). split; [reflexivity|apply holds_ok; exact H']. }
  assert (B : len (strings_bytes l r) < 2^32).
  { unfold strings_bytes. rewrite !len_app. pose proof (str_len l). pose proof (str_len r).
    change (len [130]) with 1. change (len (str_bytes (name "left"))) with 5. change (len (str_bytes (name "right"))) with 6.
    change (2^32) with 4294967296. change (2^31) with 2147483648 in L. lia. }
  destruct (codec_round f64to32 pt strings_schema (strings_record l r) (fun _ => VScal (SStr [])) (S (length (strings_bytes l r)))) as (d & e & E & D & S); cbv zeta.
  - exact SC.
  - exact RC.
  - rewrite strings_calls, CE. lia.
  - rewrite strings_calls. lia.
  - rewrite (codec_bytes (fun _ => None)) in E by (split; [exact SC|split; [exact RC|rewrite strings_calls, CE; lia]]).
    rewrite strings_calls, CE in E. cbn [N.to_nat repeat] in E. rewrite app_nil_r in E. assert (d = strings_bytes l r) by congruence. subst d.
    unfold decode_strings. rewrite D.
    rewrite (S (name "left")) by (cbn; auto). rewrite (S (name "right")) by (cbn; auto). reflexivity.
Qed.
