(** Properties C24-C25: records and transforms. *)
From Coq Require Import List NArith ZArith Lia Bool.
From Verif Require Import Base BaseLemmas OperationsModel MsgpackModel MsgpackSpec MsgpackClient MsgpackProps TransformModel TransformSpec TransformProofs.
Import ListNotations.
Open Scope N_scope.

(** C24. A record decoder reads the entries in any order, in any formats, with unknown entries (of any value Skip knows) in
    between, and stops right behind the record; afterwards each field has the value of its last entry. *)
Theorem C24_any_order_unknown_skipped : forall f64to32 pt sc fuel f l bss e, NoDup (map fst sc) -> f <> Len8 -> len l < len_limit 16 f ->
  Forall2 (entry_enc sc) l bss -> (length (concat bss) <= fuel)%nat ->
  exists e', consumes (struct_decode f64to32 pt sc fuel e) (map_head f (len l) ++ concat bss) e' /\
    forall n, e' n = fold_left assign l e n.
Proof. exact record_consumes. Qed.
Print Assumptions C24_any_order_unknown_skipped.
(** A field with one entry has that value, a field without keeps the one it had. *)
Theorem C24_field_values : forall l e n, (~ In n (map fst l) -> fold_left assign l e n = e n) /\
  (forall v, NoDup (map fst l) -> In (n, Some v) l -> fold_left assign l e n = v).
Proof. intros l e n. split; [apply (assign_other no_parse)|intros v H1 H2; apply (assign_in no_parse); assumption]. Qed.
Print Assumptions C24_field_values.
(** A schema of three fields, one of them absent; an unknown entry comes first; the list has a 32-bit size. *)
Definition sample_schema : schema := [([97], FScal KI32); ([98], FArr KStr); ([99], FOpt KBool)].
Definition sample_entries : list (bytes * option fval) := [([120], None); ([98], Some (VArr (Some [SStr [1]; SStr []]))); ([97], Some (VScal (SI32 5)))].
Definition sample_bytes : list bytes :=
  [[0xa1; 120; 0x92; 0xc0; 0xc3]; [0xd9; 1; 98; 0xdd; 0;0;0;2; 0xa1; 1; 0xa0]; [0xa1; 97; 0xd1; 0; 5]].
Example C24_ex : NoDup (map fst sample_schema) /\ Forall2 (entry_enc sample_schema) sample_entries sample_bytes
  /\ (do (e, _) <- struct_decode no_round no_parse sample_schema 50 (fun _ => VOpt None) (new_dr (0x83 :: concat sample_bytes)) ;
      Ret (e [97], e [98], e [99])) = Ret (VScal (SI32 5), VArr (Some [SStr [1]; SStr []]), VOpt None).
Proof.
  split; [|split; [|vm_compute; reflexivity]].
  - repeat constructor; cbn; intuition discriminate.
  - unfold sample_entries, sample_bytes. apply Forall2_cons; [|apply Forall2_cons; [|apply Forall2_cons; [|apply Forall2_nil]]].
    + apply (unknown sample_schema InTag [120] (MArr InTag [MNil; MBool true])); [reflexivity|cbn; intuition discriminate|repeat split; discriminate|repeat split].
    + apply (known sample_schema Len8 [98] (FArr KStr)); [reflexivity|cbn; auto|].
      apply (enc_list KStr Len32 [SStr [1]; SStr []] [MStr InTag [1]; MStr InTag []]); [discriminate|reflexivity|].
      repeat constructor; try (exists InTag; reflexivity).
    + apply (known sample_schema InTag [97] (FScal KI32)); [reflexivity|cbn; auto|].
      apply (enc_one (SI32 5) (MInt Int16 5)); cbn; try lia. exists Int16. split; [exact I|reflexivity].
Qed.

(** C25. Every single-value transform: decoding what was encoded gives the value (padding behind a 255-byte array does not
    matter). *)
Theorem C25_scalar_round_trip : forall f64to32 pt s, scal_ok s -> len (mv_bytes (scal_mv s)) + scal_excess s < 2^32 ->
  exists data, transform_encode s = Ret data /\ transform_decode f64to32 pt (kind_of s) data = Ret s.
Proof. exact transform_round. Qed.
Print Assumptions C25_scalar_round_trip.
Theorem C25_scalar_injective : forall s s', scal_ok s -> scal_ok s' -> kind_of s = kind_of s' ->
  len (mv_bytes (scal_mv s)) + scal_excess s < 2^32 -> len (mv_bytes (scal_mv s')) + scal_excess s' < 2^32 ->
  transform_encode s = transform_encode s' -> s = s'.
Proof.
  intros s s' O O' K B B' E. destruct (transform_round no_round no_parse s O B) as (x & X1 & X2).
  destruct (transform_round no_round no_parse s' O' B') as (y & Y1 & Y2). congruence.
Qed.
Print Assumptions C25_scalar_injective.
Example C25_scalar_ex : scal_ok (SBytes (repeat 7 255)) /\ scal_excess (SBytes (repeat 7 255)) = 1
  /\ (do d <- transform_encode (SBytes (repeat 7 255)) ; transform_decode no_round no_parse KBytes d) = Ret (SBytes (repeat 7 255)).
Proof. split; [split; [reflexivity|apply wfb_wf; reflexivity]|]. vm_compute. split; reflexivity. Qed.
(** Times go through their text form: the result is whatever parsing the formatted time gives. *)
Theorem C25_time : forall pt fmt t, let s := SStr (fmt t) in scal_ok s -> len (mv_bytes (scal_mv s)) < 2^32 ->
  exists data, time_encode fmt t = Ret data /\
    time_decode pt data = match pt (fmt t) with Some t' => Ret t' | None => Fail ReadErr end.
Proof. exact time_round. Qed.
Print Assumptions C25_time.
(** Records, decoded into any record. *)
Theorem C25_record_round_trip : forall f64to32 pt sc e e0 fuel, let calls := struct_calls sc e in schema_ok sc -> record_ok sc e ->
  len (calls_bytes calls) + calls_excess calls < 2^32 -> (length (calls_bytes calls) <= fuel)%nat ->
  exists data e', codec_encode sc e = Ret data /\ codec_decode f64to32 pt sc fuel e0 data = Ret e' /\ same_record sc e' e.
Proof. exact codec_round. Qed.
Print Assumptions C25_record_round_trip.
(** Lists of records. *)
Theorem C25_slice_round_trip : forall f64to32 pt sc l e0 fuel, let calls := slice_calls sc l in schema_ok sc -> Forall (record_ok sc) l -> len l < 2^32 ->
  len (calls_bytes calls) + calls_excess calls < 2^32 -> (length (calls_bytes calls) <= fuel)%nat ->
  exists data l', slice_encode sc l = Ret data /\ slice_decode f64to32 pt sc fuel e0 data = Ret l' /\
    Forall2 (fun e o => exists e', o = Some e' /\ same_record sc e' e) l l'.
Proof. exact slice_round. Qed.
Print Assumptions C25_slice_round_trip.
Definition sample_record : env := fun n =>
  if bytes_equal n [97] then VScal (SI32 (-7)) else if bytes_equal n [98] then VArr (Some [SStr [5]]) else VOpt (Some (SBool true)).
Example C25_record_ex : schema_ok sample_schema /\ record_ok sample_schema sample_record
  /\ codec_encode sample_schema sample_record = Ret [0x83; 0xa1;97; 0xf9; 0xa1;98; 0x91;0xa1;5; 0xa1;99; 0xc3].
Proof.
  split; [|split; [|vm_compute; reflexivity]].
  - split; [|split; [reflexivity|]]; [repeat constructor; cbn; intuition discriminate|].
    repeat (apply Forall_cons; [split; [reflexivity|apply wfb_wf; reflexivity]|]). apply Forall_nil.
  - unfold record_ok. repeat (apply Forall_cons || apply Forall_nil); cbn; try (split; reflexivity || lia); auto.
    split; [reflexivity|]. repeat constructor.
Qed.
(** Decoding a list reports no error for damaged input: an empty payload decodes to an empty list, a list of which all
    elements are missing to as many blank records. *)
Theorem C25_slice_errors_refuted : slice_decode no_round no_parse sample_schema 9 (fun _ => VOpt None) [] = Ret []
  /\ slice_decode no_round no_parse sample_schema 9 (fun _ => VOpt None) [0x92] = Ret [None; None].
Proof. vm_compute. split; reflexivity. Qed.
Print Assumptions C25_slice_errors_refuted.
