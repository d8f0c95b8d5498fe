(** C44: reading custom sections. *)
From Coq Require Import List NArith Bool Lia.
From Verif Require Import Base BaseLemmas OperationsModel OperationsProofs CustomModel CustomSpec CustomProofs.
Import ListNotations.
Open Scope N_scope.

(** A module with a type section, "a" twice, "é" (two bytes, with its size written in two bytes) and a data section. *)
Definition demo : bytes := [0x00; 0x61; 0x73; 0x6D] ++ [0x01; 0x00; 0x00; 0x00] ++
  [1; 2; 77; 78] ++ [0; 4; 1; 97; 5; 6] ++ [0; 5; 0x82; 0; 0xC3; 0xA9; 9] ++ [0; 3; 1; 97; 7] ++ [11; 0].
Definition demo_sections : list section := [Other 1 [77; 78]; Custom [97] [5; 6]; Custom [0xC3; 0xA9] [9]; Custom [97] [7]; Other 11 []].
Lemma demo_module : module_of demo demo_sections.
Proof.
  assert (L : forall b, b < 128 -> u32_enc [b] b) by (intros b B; split; [constructor; exact B|split; [change (2^32) with 4294967296; lia|cbn; lia]]).
  eexists. split; [reflexivity|]. cbn [app].
  assert (A : utf8 [97]) by (exists [97]; split; [constructor; [left; lia|constructor]|reflexivity]).
  apply (sections_cons (Other 1 [77; 78]) 1 [77; 78] [2]); [constructor; discriminate|apply L; reflexivity|].
  apply (sections_cons (Custom [97] [5; 6]) 0 ([1] ++ [97] ++ [5; 6]) [4]); [constructor; [apply L; reflexivity|exact A]|apply L; reflexivity|].
  apply (sections_cons (Custom [0xC3; 0xA9] [9]) 0 ([0x82; 0] ++ [0xC3; 0xA9] ++ [9]) [5]); [constructor|apply L; reflexivity|].
  - split; [|split; [reflexivity|cbn; lia]]. change (len [195; 169]) with (0x82 - 128 + 128 * 0). constructor; [lia|constructor; lia].
  - exists [0xE9]. split; [constructor; [left; lia|constructor]|reflexivity].
  - apply (sections_cons (Custom [97] [7]) 0 ([1] ++ [97] ++ [7]) [3]); [constructor; [apply L; reflexivity|exact A]|apply L; reflexivity|].
    apply (sections_cons (Other 11 []) 11 [] [0]); [constructor; discriminate|apply L; reflexivity|constructor].
Qed.

(** The sections asked for come back with exactly their contents, the last one of a name winning, and nothing else does. *)
Theorem C44_contents : forall data names ss, wf data -> module_of data ss -> ~ ends_empty names ss ->
  exists m, Read data names = Ret m /\ forall n, section_of m n = if in_dec (list_eq_dec N.eq_dec) n names then last_of n ss else None.
Proof. exact contents_proof. Qed.
Print Assumptions C44_contents.
Example C44_contents_ex : wf demo /\ ~ ends_empty [[97]; [98]] demo_sections /\
  match Read demo [[97]; [98]] with Ret m => section_of m [97] = Some [7] /\ section_of m [98] = None /\ section_of m [0xC3; 0xA9] = None | _ => False end /\
  match Read demo [[0xC3; 0xA9]] with Ret m => section_of m [0xC3; 0xA9] = Some [9] | _ => False end.
Proof.
  split; [apply wfb_wf; reflexivity|split; [|vm_compute; auto]]. intros (ss & n & E & _). unfold demo_sections in E. do 5 (destruct ss as [|? ss]; [discriminate|cbn [app] in E; injection E as _ E]). destruct ss; discriminate.
Qed.

(** Read succeeds exactly on well-formed modules that do not end with an empty section asked for, ... *)
Theorem C44_accepts : forall data names, wf data -> (exists m, Read data names = Ret m) <-> exists ss, module_of data ss /\ ~ ends_empty names ss.
Proof. exact accepts_proof. Qed.
Print Assumptions C44_accepts.
(** ... and yields an error on everything else, never a panic. *)
Theorem C44_rejects : forall data names, wf data -> (exists e, Read data names = Fail e) <-> ~ exists ss, module_of data ss /\ ~ ends_empty names ss.
Proof. exact rejects_proof. Qed.
Print Assumptions C44_rejects.
Theorem C44_no_panic : forall data names, wf data -> Read data names <> Panic.
Proof. exact total_proof. Qed.
Print Assumptions C44_no_panic.
(** A length too long or too short, a name longer than its section, bad UTF-8, a size of six bytes. *)
Example C44_rejects_ex : let M := [0x00; 0x61; 0x73; 0x6D] ++ [0x01; 0x00; 0x00; 0x00] in
  Read (M ++ [0; 5; 1; 97; 5; 6]) [[97]] = Fail ErrLength /\ Read (M ++ [0; 3; 1; 97; 5; 6]) [[97]] = Fail ErrSectionSize /\ Read (M ++ [0; 2; 2; 97; 98; 1]) [[97]] = Fail ErrMalformed /\
  Read (M ++ [0; 3; 1; 0xC3; 0]) [[97]] = Fail ErrNotUtf8 /\ Read (M ++ [1; 0x80; 0x80; 0x80; 0x80; 0x80; 0]) [] = Fail ErrSectionSize /\ Read (M ++ [1; 0x80; 0x80; 0x80; 0x80; 0x10]) [] = Fail ErrSectionSize /\ Read [0] [] = Fail ErrInvalidMagicNumber.
Proof. vm_compute. auto 10. Qed.

(** Which of the two errors of the header comes back: data without the magic number, or with it and without the version. *)
Theorem C44_header : forall data names,
  (Read data names = Fail ErrInvalidMagicNumber <-> ~ exists rest, data = [0x00; 0x61; 0x73; 0x6D] ++ rest) /\
  (Read data names = Fail ErrInvalidVersion <-> exists rest, data = [0x00; 0x61; 0x73; 0x6D] ++ rest /\ ~ exists rest', rest = [0x01; 0x00; 0x00; 0x00] ++ rest').
Proof. exact header_proof. Qed.
Print Assumptions C44_header.
Example C44_header_ex : Read [0x00; 0x61; 0x73] [] = Fail ErrInvalidMagicNumber /\ Read [0x00; 0x61; 0x73; 0x6D; 1; 0] [] = Fail ErrInvalidVersion /\
  Read [0x00; 0x61; 0x73; 0x6D; 2; 0; 0; 0] [] = Fail ErrInvalidVersion.
Proof. vm_compute. auto. Qed.

(** Whether data is a module, and of which sections, is not in doubt. *)
Theorem C44_unique : forall data ss ss', module_of data ss -> module_of data ss' -> ss = ss'.
Proof. exact unique_proof. Qed.
Print Assumptions C44_unique.
Example C44_unique_ex : module_of demo demo_sections.
Proof. exact demo_module. Qed.

(** Not every well-formed module is accepted: one that ends with an empty section asked for is an error, ... *)
Theorem C44_empty_at_end : forall data names ss, wf data -> module_of data ss -> ends_empty names ss -> exists e, Read data names = Fail e.
Proof. exact ends_empty_proof. Qed.
Print Assumptions C44_empty_at_end.
(** ... though the same section before another one is not. *)
Example C44_empty_at_end_ex : let M := [0x00; 0x61; 0x73; 0x6D] ++ [0x01; 0x00; 0x00; 0x00] in
  Read (M ++ [0; 2; 1; 97]) [[97]] = Fail ErrRead /\ Read (M ++ [0; 2; 1; 97]) [] = Ret [] /\ Read (M ++ [0; 2; 1; 97; 11; 0]) [[97]] = Ret [([97], [])].
Proof. vm_compute. auto. Qed.
Theorem C44_all_modules_refuted : ~ (forall data names ss, wf data -> module_of data ss -> exists m, Read data names = Ret m).
Proof.
  intro X. specialize (X ([0x00; 0x61; 0x73; 0x6D] ++ [0x01; 0x00; 0x00; 0x00] ++ [0; 2; 1; 97]) [[97]] [Custom [97] []]). destruct X as (m & E); [apply wfb_wf; reflexivity| |vm_compute in E; discriminate].
  eexists. split; [reflexivity|]. assert (L : forall b, b < 128 -> u32_enc [b] b) by (intros b B; split; [constructor; exact B|split; [change (2^32) with 4294967296; lia|cbn; lia]]).
  apply (sections_cons (Custom [97] []) 0 ([1] ++ [97] ++ []) [2]); [constructor; [apply L; reflexivity|]|apply L; reflexivity|constructor]. exists [97]. split; [constructor; [left; lia|constructor]|reflexivity].
Qed.
Print Assumptions C44_all_modules_refuted.
