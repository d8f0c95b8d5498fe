(** Property C74: the example components behind their ports. *)
From Coq Require Import String List NArith ZArith Lia Bool Permutation Sorted.
From Verif Require Import Base BaseLemmas OperationsModel MsgpackModel MsgpackSpec MsgpackClient MsgpackProps TransformModel PortModel PortSpec PortProofs
  ComponentModel ComponentSpec ComponentProofs.
Import ListNotations.
Open Scope N_scope.
Local Open Scope list_scope.

(** Lower-casing of ASCII letters and a sort, for the examples. *)
Definition ascii_lower : bytes -> bytes := map (fun b => if (65 <=? b) && (b <=? 90) then b + 32 else b).
Fixpoint place (x : bytes * N) (l : list (bytes * N)) : list (bytes * N) :=
  match l with [] => [x] | y :: l' => if snd y <=? snd x then x :: l else y :: place x l' end.
Definition by_count (l : list (bytes * N)) : list (bytes * N) := fold_right place [] l.
Lemma place_perm : forall x l, Permutation (place x l) (x :: l).
Proof.
  intros x l. induction l as [|y l IH]; cbn [place]; [auto|]. destruct (snd y <=? snd x); [auto|].
  eapply Permutation_trans; [apply perm_skip; exact IH|apply perm_swap].
Qed.
Lemma by_count_sorts : sorts by_count.
Proof.
  intros l. induction l as [|x l [P S]]; cbn [by_count fold_right]; [split; constructor|]. fold (by_count l). split.
  - eapply Permutation_trans; [apply place_perm|]. apply perm_skip. exact P.
  - clear P. induction S as [|y m S IH F]; cbn [place]; [repeat constructor|].
    destruct (snd y <=? snd x) eqn:E.
    + constructor; [constructor; assumption|]. constructor; [lia|]. eapply Forall_impl; [|exact F]. cbn. intros a ?. lia.
    + constructor; [exact IH|]. eapply Permutation_Forall; [apply Permutation_sym, place_perm|]. constructor; [lia|exact F].
Qed.

(** C74. Process, given the words of its input, emits each word that is not ignored, lower-cased, once, with the number of its
    occurrences (modulo 2^64), from the highest to the lowest count. *)
Theorem C74_process : forall lower order words, sorts order -> let counts := process lower order words in
  NoDup (map fst counts) /\ StronglySorted (fun a b => snd b <= snd a) counts /\
  forall w c, In (w, c) counts <-> ~ In w ignored_words /\ In w (map lower words) /\ c = occurrences w (map lower words) mod 2^64.
Proof. intros lower order words S. cbv zeta. destruct (process_spec lower order words S) as (A & B & C). auto. Qed.
Print Assumptions C74_process.
Example C74_process_ex : sorts by_count /\
  process ascii_lower by_count (map name ["The"; "dog"; "and"; "the"; "cat"; "and"; "CAT"])%string = [(name "cat", 2); (name "dog", 1)].
Proof. split; [exact by_count_sorts|reflexivity]. Qed.

(** The caller of the channel: the first marked message for the port "words" is the last one that counts.  If it is a word, the
    caller is sent its count, 1 (or nothing, if the word is ignored), and the end. *)
Theorem C74_word : forall f64to32 pt lower order pre d md w post, sorts order -> let decode := decode_string f64to32 pt in
  Forall (idle (name "words")) pre -> addressed md (name "words") true -> decode d = Ret w ->
  Forall event_wf post -> survives (name "words") decode post -> short decode lower (INext d md :: post) ->
  word_frequency f64to32 pt lower order (pre ++ INext d md :: post) =
    Ret ((if in_dec (list_eq_dec N.eq_dec) (lower w) ignored_words then [] else [message (name "counts") (count_bytes (lower w) 1)]) ++ [end_message; OComplete]).
Proof.
  intros f64to32 pt lower order pre d md w post SO decode F AD DE W SV SH. subst decode.
  assert (H : holds (lower w)) by (eapply SH; [left; reflexivity|exact DE]).
  destruct (word_step f64to32 pt lower order SO d md w AD DE H) as (s1 & R & OK & CL & SN).
  eapply ends_with; [exact SO|exact F|exact R|exact OK|right; exact SV|exact W|eapply short_tail; exact SH|exact CL|]. rewrite SN.
  destruct (in_dec _ _ _) as [I|I]; rewrite <- ignored_in in I; [rewrite I; reflexivity|destruct (ignored (lower w)); [congruence|reflexivity]].
Qed.
Print Assumptions C74_word.

(** If it cannot be decoded, the caller is sent that error. *)
Theorem C74_bad_word : forall f64to32 pt lower order pre d md x post, sorts order -> let decode := decode_string f64to32 pt in
  Forall (idle (name "words")) pre -> addressed md (name "words") true -> decode d = Fail x ->
  Forall event_wf post -> survives (name "words") decode post -> short decode lower post ->
  word_frequency f64to32 pt lower order (pre ++ INext d md :: post) = Ret [OError x].
Proof.
  intros f64to32 pt lower order pre d md x post SO decode F AD DE W SV SH. subst decode.
  eapply ends_with; [exact SO|exact F|apply bad_step; eassumption|constructor|right; exact SV|exact W|exact SH|reflexivity|reflexivity].
Qed.
Print Assumptions C74_bad_word.

(** If the input completes before, the caller is sent the end; if it fails before, or does neither, nothing. *)
Theorem C74_input_end : forall f64to32 pt lower order pre post, sorts order -> Forall (idle (name "words")) pre ->
  word_frequency f64to32 pt lower order (pre ++ IComplete :: post) = Ret [end_message; OComplete] /\
  word_frequency f64to32 pt lower order (pre ++ IError :: post) = Ret [] /\
  word_frequency f64to32 pt lower order pre = Ret [].
Proof.
  intros f64to32 pt lower order pre post SO F. split; [|split].
  - destruct (end_step f64to32 pt lower order SO) as (s1 & R & M & IN & CL & SN). unfold word_frequency.
    rewrite steps_app, idle_steps by exact F. cbn [bind freq_steps]. rewrite R. cbn [bind].
    destruct (ended_steps f64to32 pt lower order post s1 IN) as (s2 & R2 & E2). rewrite R2. cbn [bind]. rewrite E2, SN. reflexivity.
  - unfold word_frequency. rewrite steps_app, idle_steps by exact F. cbn [bind freq_steps freq_step freq_start w_words w_map w_sink].
    match goal with |- context [freq_steps _ _ _ _ ?s post] => destruct (ended_steps f64to32 pt lower order post s eq_refl) as (s2 & R2 & E2) end.
    rewrite R2. cbn [bind]. rewrite E2. reflexivity.
  - unfold word_frequency. rewrite idle_steps by exact F. reflexivity.
Qed.
Print Assumptions C74_input_end.

(** After a Cancel nothing more is seen. *)
Theorem C74_cancel : forall f64to32 pt lower order l post seen seen', sorts order -> Forall event_wf (l ++ ICancel :: post) ->
  short (decode_string f64to32 pt) lower (l ++ ICancel :: post) -> word_frequency f64to32 pt lower order l = Ret seen ->
  word_frequency f64to32 pt lower order (l ++ ICancel :: post) = Ret seen' -> seen' = seen.
Proof.
  intros f64to32 pt lower order l post seen seen' SO W SH E E'. unfold word_frequency in *. rewrite steps_app in E'.
  assert (WL : Forall event_wf l /\ Forall event_wf (ICancel :: post)) by (apply Forall_app; exact W). destruct WL as [WL WP]. inversion WP as [|? ? _ WP']; subst.
  destruct (steps_total f64to32 pt lower order SO l freq_start WL (Forall_nil _)) as [(_ & _ & C)|(_ & s1 & R & OK & _)].
  - intros d md a I. apply (SH d md a). apply in_or_app. left. exact I.
  - rewrite C in E. discriminate.
  - rewrite R in E, E'. cbn [bind] in E, E'. injection E as <-. cbn [freq_steps freq_step bind] in E'.
    match type of E' with context [freq_steps _ _ _ _ ?s post] => destruct (steps_total f64to32 pt lower order SO post s WP') as [(_ & _ & C)|(_ & s2 & R2 & _ & K)] end.
    + exact OK.
    + intros d md a I. apply (SH d md a). apply in_or_app. right. right. exact I.
    + rewrite C in E'. discriminate.
    + rewrite R2 in E'. cbn [bind] in E'. injection E' as <-. destruct (K eq_refl) as [_ ->]. reflexivity.
Qed.
Print Assumptions C74_cancel.

(** So no caller ever sees more than one word, nor a count other than 1, whatever it sends. *)
Theorem C74_one_word : forall f64to32 pt lower order l seen, sorts order -> Forall event_wf l -> short (decode_string f64to32 pt) lower l ->
  word_frequency f64to32 pt lower order l = Ret seen ->
  seen = [] \/ (exists x, seen = [OError x]) \/ seen = [end_message; OComplete] \/
  exists w, seen = [message (name "counts") (count_bytes w 1); end_message; OComplete].
Proof. intros f64to32 pt lower order l seen SO W SH E. exact (shape_from f64to32 pt lower order SO l freq_start seen W (Forall_nil _) SH (or_introl eq_refl) E). Qed.
Print Assumptions C74_one_word.

(** The guest crashes exactly when, before the input ends, the metadata of a message is too short for what it announces, or the
    reader of strings panics on a marked word (C20, C51: a length beyond the end of the data that wraps around). *)
Theorem C74_crash : forall f64to32 pt lower order l, sorts order -> Forall event_wf l -> let decode := decode_string f64to32 pt in
  short decode lower l -> (word_frequency f64to32 pt lower order l = Panic <-> ~ survives (name "words") decode l).
Proof. intros f64to32 pt lower order l SO W decode SH. apply freq_crash; assumption. Qed.
Print Assumptions C74_crash.

(** What the component sends reads, at the other end, as both an item and the end, every time. *)
Theorem C74_marks : forall port data, len port <= 65535 ->
  exists d md p, message port data = ONext d md /\ d = data /\ PortDecode md = Ret p /\ p_port p = port /\ p_next p = true /\ p_complete p = true.
Proof.
  intros port data L. exists data, (port_bytes 1 port []), (mkPort port [] true true). split; [reflexivity|]. split; [reflexivity|]. split; [|auto].
  exact (decode_spec 1 port [] L).
Qed.
Print Assumptions C74_marks.

(** A caller that sends two equal words and completes should see the count 2; it sees 1. *)
Definition word_message (w : string) : iev := INext (str_bytes (name w)) (port_bytes 1 (name "words") []).
Theorem C74_count_refuted : exists l,
  l = [word_message "cat"; word_message "Cat"; IComplete] /\
  process ascii_lower by_count [name "cat"; name "Cat"] = [(name "cat", 2)] /\
  word_frequency no_round no_parse ascii_lower by_count l = Ret [message (name "counts") (count_bytes (name "cat") 1); end_message; OComplete] /\
  (* a message that only announces the end of the words is taken for a word *)
  word_frequency no_round no_parse ascii_lower by_count [INext [] (port_bytes 1 (name "words") []); IComplete] = Ret [OError ErrRange] /\
  (* without metadata the guest crashes *)
  word_frequency no_round no_parse ascii_lower by_count [INext (str_bytes (name "cat")) []] = Panic.
Proof. eexists. split; [reflexivity|]. vm_compute. repeat split. Qed.
Print Assumptions C74_count_refuted.
Example C74_word_ex : let l := [INext [] (port_bytes 0 (name "words") []); INext [7] (port_bytes 1 (name "other") [])] in
  Forall (idle (name "words")) l /\ survives (name "words") (decode_string no_round no_parse) [word_message "dog"; ICancel; IComplete; INext [] []] /\
  decode_string no_round no_parse (str_bytes (name "Cat")) = Ret (name "Cat") /\ holds (ascii_lower (name "Cat")).
Proof.
  split; [|split; [|split; [reflexivity|split; [reflexivity|apply wfb_wf; reflexivity]]]].
  - repeat constructor.
    + exists (name "words"), false. split; [|auto]. exists 0, []. repeat split. cbn. lia.
    + exists (name "other"), true. split; [|left; discriminate]. exists 1, []. repeat split. cbn. lia.
  - cbn [survives word_message]. split; [|exact I]. exists (name "words"), true. split; [exists 1, []; repeat split; cbn; lia|]. intros _ _. vm_compute. discriminate.
Qed.

(** The greeter answers the first marked message for its port "name" with one greeting and the end, or with the error of
    decoding it; without such a message it never answers, even if the input completes.  It crashes as above. *)
Theorem C74_greeter : forall f64to32 pt, let decode := decode_string f64to32 pt in let greeting s := name "Hello, " ++ s in
  (forall pre d md s post, Forall (idle (name "name")) pre -> addressed md (name "name") true -> decode d = Ret s ->
    Forall event_wf post -> survives (name "name") decode post -> short decode greeting (INext d md :: post) ->
    greeter f64to32 pt (pre ++ INext d md :: post) = Ret [message (name "message") (str_bytes (greeting s)); OComplete]) /\
  (forall pre d md x post, Forall (idle (name "name")) pre -> addressed md (name "name") true -> decode d = Fail x ->
    Forall event_wf post -> survives (name "name") decode post -> short decode greeting post ->
    greeter f64to32 pt (pre ++ INext d md :: post) = Ret [OError x]) /\
  (forall pre e post, Forall (idle (name "name")) pre -> e = IComplete \/ e = IError ->
    greeter f64to32 pt pre = Ret [] /\ greeter f64to32 pt (pre ++ e :: post) = Ret []) /\
  (forall l, Forall event_wf l -> short decode greeting l -> (greeter f64to32 pt l = Panic <-> ~ survives (name "name") decode l)).
Proof.
  intros f64to32 pt decode greeting. assert (OP : len (name "message") <= 65535) by (cbn; lia). split; [|split; [|split]].
  - intros pre d md s post F AD DE W SV SH. apply one_answer; auto. fold decode. rewrite DE. reflexivity.
  - intros pre d md x post F AD DE W SV SH. apply one_answer; auto.
    + intros d' md' a [E|I] DA; [injection E as -> ->; fold decode in DA; congruence|eapply SH; eassumption].
    + fold decode. rewrite DE. reflexivity.
  - intros pre e post F E. destruct (one_silent (name "name") (name "message") decode greeting pre F) as [A B]. split; [exact A|apply B; exact E].
  - intros l W SH. apply one_crash; assumption.
Qed.
Print Assumptions C74_greeter.
Example C74_greeter_ex : greeter no_round no_parse [INext (str_bytes (name "Ann")) (port_bytes 1 (name "name") []); IComplete]
    = Ret [ONext (0xaa :: name "Hello, Ann") ([1; 0; 7] ++ name "message"); OComplete]
  /\ greeter no_round no_parse [IComplete] = Ret [].
Proof. vm_compute. split; reflexivity. Qed.

(** The concatenation of the two strings of the first marked message for "strings", with a blank between them. *)
Theorem C74_concat : forall f64to32 pt, let decode := decode_strings f64to32 pt in let join p := fst p ++ name " " ++ snd p in
  (forall pre l r md post, Forall (idle (name "strings")) pre -> addressed md (name "strings") true -> holds l -> holds r -> len l + len r < 2^31 ->
    Forall event_wf post -> survives (name "strings") decode post -> short decode join (INext (strings_bytes l r) md :: post) ->
    concat_component f64to32 pt (pre ++ INext (strings_bytes l r) md :: post) = Ret [message (name "value") (str_bytes (l ++ name " " ++ r)); OComplete]) /\
  (forall pre d md x post, Forall (idle (name "strings")) pre -> addressed md (name "strings") true -> decode d = Fail x ->
    Forall event_wf post -> survives (name "strings") decode post -> short decode join post ->
    concat_component f64to32 pt (pre ++ INext d md :: post) = Ret [OError x]) /\
  (forall pre e post, Forall (idle (name "strings")) pre -> e = IComplete \/ e = IError ->
    concat_component f64to32 pt pre = Ret [] /\ concat_component f64to32 pt (pre ++ e :: post) = Ret []) /\
  (forall l, Forall event_wf l -> short decode join l -> (concat_component f64to32 pt l = Panic <-> ~ survives (name "strings") decode l)).
Proof.
  intros f64to32 pt decode join. assert (OP : len (name "value") <= 65535) by (cbn; lia). split; [|split; [|split]].
  - intros pre l r md post F AD HL HR L W SV SH. apply one_answer; auto. rewrite strings_decode by assumption. reflexivity.
  - intros pre d md x post F AD DE W SV SH. apply one_answer; auto.
    + intros d' md' a [E|I] DA; [injection E as -> ->; fold decode in DA; congruence|eapply SH; eassumption].
    + fold decode. rewrite DE. reflexivity.
  - intros pre e post F E. destruct (one_silent (name "strings") (name "value") decode join pre F) as [A B]. split; [exact A|apply B; exact E].
  - intros l W SH. apply one_crash; assumption.
Qed.
Print Assumptions C74_concat.
Example C74_concat_ex : concat_component no_round no_parse [INext (strings_bytes (name "foo") (name "bar")) (port_bytes 1 (name "strings") [])]
    = Ret [ONext (0xa7 :: name "foo bar") ([1; 0; 5] ++ name "value"); OComplete]
  /\ holds (name "foo").
Proof. split; [vm_compute; reflexivity|split; [reflexivity|apply wfb_wf; reflexivity]]. Qed.
