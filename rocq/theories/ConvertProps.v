(** Property C53: converting decoded values to the types of an application. *)
From Coq Require Import List NArith ZArith Lia Bool.
From Verif Require Import Base BaseLemmas OperationsModel MsgpackModel MsgpackSpec MsgpackReadSpec MsgpackIOProofs MsgpackReadProofs
  MsgpackAcceptProofs ConvertModel ConvertSpec ConvertProofs.
Import ListNotations.

(** C53. A conversion between integer types yields the one number of the target type congruent to the value, so the
    value itself exactly when it is one of the target type; a wider type in between loses nothing. *)
Theorem C53_numeric : forall t v e, (0 < i_bits t)%Z ->
  exists r, Numeric t v e = Ret (r, e) /\ becomes (i_signed t) (i_bits t) v r /\
    (forall r', becomes (i_signed t) (i_bits t) v r' -> r' = r) /\ (r = v <-> in_type (i_signed t) (i_bits t) v).
Proof.
  intros t v e B. exists (convert t v). split; [reflexivity|]. split; [apply convert_becomes, B|].
  split; [intros r' H; apply (becomes_unique _ _ v r' _ B H), convert_becomes, B|apply convert_id, B].
Qed.
Print Assumptions C53_numeric.
Theorem C53_there_and_back : forall t t' v e, (0 < i_bits t)%Z -> (i_bits t <= i_bits t')%Z -> in_type (i_signed t) (i_bits t) v ->
  (do (x, e') <- Numeric t' v e ; Numeric t x e') = Ret (v, e).
Proof. intros t t' v e B B' I. unfold Numeric, Convert, bind. rewrite (convert_back t t' v B B' I). reflexivity. Qed.
Print Assumptions C53_there_and_back.

(** The ranges of the eight types, and what a number becomes in them. *)
Theorem C53_types : forall v e,
  Forall (fun x => match x with (t, (lo, hi), m) => exists r, Numeric t v e = Ret (r, e) /\ (lo <= r <= hi)%Z /\ ((v - r) mod m = 0)%Z end)
    [(t_int8, (-128, 127), 256); (t_int16, (-32768, 32767), 65536); (t_int32, (-2147483648, 2147483647), 4294967296);
     (t_int64, (-9223372036854775808, 9223372036854775807), 18446744073709551616);
     (t_uint8, (0, 255), 256); (t_uint16, (0, 65535), 65536); (t_uint32, (0, 4294967295), 4294967296); (t_uint64, (0, 18446744073709551615), 18446744073709551616)]%Z.
Proof.
  intros v e. assert (G : forall t lo hi m, (0 < i_bits t)%Z -> (2 ^ i_bits t = m)%Z -> (forall r, in_type (i_signed t) (i_bits t) r -> lo <= r <= hi)%Z -> exists r, Numeric t v e = Ret (r, e) /\ (lo <= r <= hi)%Z /\ ((v - r) mod m = 0)%Z).
  { intros t lo hi m B M X. exists (convert t v). split; [reflexivity|]. destruct (convert_becomes t v B) as [I [k K]]. split; [exact (X _ I)|]. rewrite M in K. replace (v - convert t v)%Z with (k * m)%Z by lia. apply Z.mod_mul. rewrite <- M. apply Z.pow_nonzero; lia. }
  repeat (apply Forall_cons; [apply G; [reflexivity|reflexivity|unfold in_type; intros r I; cbn [t_int8 t_int16 t_int32 t_int64 t_uint8 t_uint16 t_uint32 t_uint64 i_signed i_bits] in I; lia]|]). apply Forall_nil.
Qed.
Print Assumptions C53_types.
Example C53_types_ex : Numeric t_int8 200 None = Ret (-56, None)%Z /\ Numeric t_uint8 (-1) None = Ret (255, None)%Z /\ Numeric t_uint64 (-1) None = Ret (18446744073709551615, None)%Z.
Proof. vm_compute. repeat split. Qed.

(** Reading an optional field through NillableNumeric, NillableBool or NillableString: it yields the value exactly
    when one stands there, and panics in all other cases - when the field is nil as well as on any error. *)
Theorem C53_nillable_signed : forall ty lo hi pre tail, wf tail -> (len pre + len tail < 2^31)%N ->
  let d := mkDR (pre ++ tail) (len pre) false in
  (forall t e, field_nillable (NillableNumeric ty) (ReadIntN lo hi) d = Ret (t, e) <->
     exists z, signed_here lo hi tail z /\ t = Some (convert ty z) /\ e = None) /\
  (field_nillable (NillableNumeric ty) (ReadIntN lo hi) d = Panic <-> ~ exists z, signed_here lo hi tail z).
Proof. intros ty lo hi pre tail W B. exact (signed_exact (convert ty) lo hi pre tail W B). Qed.
Print Assumptions C53_nillable_signed.
Theorem C53_nillable_unsigned : forall ty hi pre tail, wf tail -> (len pre + len tail < 2^31)%N ->
  let d := mkDR (pre ++ tail) (len pre) false in
  let conv := Nillable (fun n => convert ty (Z.of_N n)) in
  (forall t e, field_nillable conv (ReadUintN hi) d = Ret (t, e) <->
     exists n, unsigned_here hi tail n /\ t = Some (convert ty (Z.of_N n)) /\ e = None) /\
  (field_nillable conv (ReadUintN hi) d = Panic <-> ~ exists n, unsigned_here hi tail n).
Proof. intros ty hi pre tail W B. exact (unsigned_exact (fun n => convert ty (Z.of_N n)) hi pre tail W B). Qed.
Print Assumptions C53_nillable_unsigned.
Theorem C53_nillable_bool : forall pre tail, wf tail -> (len pre + len tail < 2^31)%N ->
  let d := mkDR (pre ++ tail) (len pre) false in
  let conv := Nillable (fun b : bool => b) in
  (forall t e, field_nillable conv ReadBool d = Ret (t, e) <-> exists b, bool_here tail b /\ t = Some b /\ e = None) /\
  (field_nillable conv ReadBool d = Panic <-> ~ exists b, bool_here tail b).
Proof. intros pre tail W B. exact (bool_exact (fun b => b) pre tail W B). Qed.
Print Assumptions C53_nillable_bool.
Theorem C53_nillable_string : forall pre tail, wf tail -> (len pre + len tail < 2^31)%N ->
  let d := mkDR (pre ++ tail) (len pre) false in
  let conv := Nillable (fun s : bytes => s) in
  (forall t e, field_nillable conv ReadString d = Ret (t, e) <-> exists s, text_here tail s /\ t = Some s /\ e = None) /\
  (field_nillable conv ReadString d = Panic <-> ~ exists s, text_here tail s).
Proof. intros pre tail W B. exact (text_exact (fun s => s) pre tail W B). Qed.
Print Assumptions C53_nillable_string.

(** NillableParse, in contrast, never panics (with a reader and a parser that do not), has a value only when the
    parser returned it for the value read, no error beside a value, and neither for nil. *)
Theorem C53_parse : forall I T (fn : I -> T * err) (m : M I) pre tail, wf tail -> (len pre + len tail < 2^31)%N ->
  (forall d, m d <> Panic) -> let d := mkDR (pre ++ tail) (len pre) false in
  exists t e, field_nillable (NillableParse fn) m d = Ret (t, e) /\
    (forall x, t = Some x -> exists v, fn v = (x, None) /\ exists d', m d = Ret (v, d')) /\
    (t <> None -> e = None) /\
    ((exists rest, tail = 0xc0%N :: rest) -> t = None /\ e = None).
Proof. intros I T fn m pre tail W B NP. destruct (bounds pre tail B) as [F R]. exact (parse_safe fn m pre tail F R W NP). Qed.
Print Assumptions C53_parse.

(** No error is dropped: whatever value and error an adapter is called with, an answer without an error means that there was no error to report, neither the caller's nor the parser's; and with an error it
    is that error. *)
Theorem C53_errors : forall I T (zero : T) (fn : I -> T * err) (value : option I) (v : I) (e : err),
  (forall t, NillableParse fn value e = Ret (t, None) -> e = None /\ forall w, value = Some w -> fn w = (match t with Some x => x | None => fst (fn w) end, None) /\ t <> None) /\
  (forall t, StringToTimePtr fn value e = Ret (t, None) -> e = None /\ forall w, value = Some w -> exists x, fn w = (x, None) /\ t = Some x) /\
  (forall t, Parse zero fn v e = Ret (t, None) -> e = None /\ fn v = (t, None)) /\
  (forall x, e = Some x -> NillableParse fn value e = Ret (None, Some x) /\ StringToTimePtr fn value e = Ret (None, Some x) /\ Parse zero fn v e = Ret (zero, Some x)) /\
  (forall w x, e = None -> snd (fn w) = Some x -> NillableParse fn (Some w) e = Ret (None, Some x) /\ StringToTimePtr fn (Some w) e = Ret (Some (fst (fn w)), Some x) /\ Parse zero fn w e = Ret (fst (fn w), Some x)).
Proof.
  intros I T zero fn value v e. split; [|split; [|split; [|split]]].
  - intros t E. unfold NillableParse in E. destruct e as [x|]; [discriminate E|]. split; [reflexivity|]. intros w ->. destruct (fn w) as [y [x|]]; [discriminate E|]. injection E as <-. split; [reflexivity|discriminate].
  - intros t E. unfold StringToTimePtr in E. destruct value as [w|]; destruct e as [x|]; try discriminate E; (split; [reflexivity|]); [|discriminate]. intros w' W. injection W as <-. destruct (fn w) as [y x]. injection E as <- ->. exists y. split; reflexivity.
  - intros t E. unfold Parse in E. destruct e as [x|]; [discriminate E|]. split; [reflexivity|]. congruence.
  - intros x ->. unfold NillableParse, StringToTimePtr, Parse. destruct value; repeat split; reflexivity.
  - intros w x -> E. unfold NillableParse, StringToTimePtr, Parse. destruct (fn w) as [y z]. cbn [snd] in E. subst z. repeat split; reflexivity.
Qed.
Print Assumptions C53_errors.
Example C53_errors_ex : NillableParse (fun s : bytes => (len s, None)) (Some [1%N]) (Some ReadErr) = Ret (None, Some ReadErr) /\ NillableParse (fun s : bytes => (len s, Some ReadErr)) (Some [1%N]) None = Ret (None, Some ReadErr) /\
  Parse 7%N (fun s : bytes => (len s, None)) [1%N] None = Ret (1%N, None).
Proof. repeat split. Qed.

(** A text read where it must stand and parsed: the parser's answer when a text stands there; otherwise the zero value and an error (or the reader's
    panic, C20). *)
Theorem C53_required : forall T (zero : T) (fn : bytes -> T * err) pre tail, wf tail -> (len pre + len tail < 2^31)%N ->
  let d := mkDR (pre ++ tail) (len pre) false in
  (forall s, text_here tail s -> field [] (Parse zero fn) ReadString d = Ret (fn s)) /\
  ((forall s, ~ text_here tail s) -> (exists e, field [] (Parse zero fn) ReadString d = Ret (zero, Some e)) \/ ReadString d = Panic /\ field [] (Parse zero fn) ReadString d = Panic).
Proof. intros T zero fn pre tail W B. exact (parse_field zero fn pre tail W B). Qed.
Print Assumptions C53_required.
Example C53_required_ex : text_here [0xa2; 104; 105; 7]%N [104; 105]%N /\ field [] (Parse 0%N (fun s => (len s, None))) ReadString (new_dr [0xa2; 104; 105; 7]%N) = Ret (2%N, None) /\
  field [] (Parse 0%N (fun s => (len s, None))) ReadString (new_dr [7]%N) = Ret (0%N, Some ReadErr).
Proof. split; [exists [0xa2%N], [7%N]; split; [left; exists InTag; split; reflexivity|reflexivity]|]. split; vm_compute; reflexivity. Qed.

(** StringToTimePtr: nil for nil; the parser's answer - a pointer even when parsing failed - when a text stands there; nil and an error otherwise. *)
Theorem C53_time : forall T (fn : bytes -> T * err) pre tail, wf tail -> (len pre + len tail < 2^31)%N ->
  let d := mkDR (pre ++ tail) (len pre) false in
  (forall s, text_here tail s -> field_nillable (StringToTimePtr fn) ReadString d = Ret (Some (fst (fn s)), snd (fn s))) /\
  (forall rest, tail = 0xc0%N :: rest -> field_nillable (StringToTimePtr fn) ReadString d = Ret (None, None)) /\
  ((forall s, ~ text_here tail s) -> (forall rest, tail <> 0xc0%N :: rest) ->
     (exists e, field_nillable (StringToTimePtr fn) ReadString d = Ret (None, Some e)) \/ ReadString d = Panic /\ field_nillable (StringToTimePtr fn) ReadString d = Panic).
Proof. intros T fn pre tail W B. exact (time_field fn pre tail W B). Qed.
Print Assumptions C53_time.
Example C53_time_ex : field_nillable (StringToTimePtr (fun s => (len s, Some ReadErr))) ReadString (new_dr [0xa2; 104; 105]%N) = Ret (Some 2%N, Some ReadErr) /\
  field_nillable (StringToTimePtr (fun s => (len s, None))) ReadString (new_dr [0xc0]%N) = Ret (None, None) /\ field_nillable (StringToTimePtr (fun s => (len s, None))) ReadString (new_dr [7]%N) = Ret (None, Some ReadErr).
Proof. vm_compute. repeat split. Qed.

(** An optional value formatted and parsed again is the same, if that is so of values; through NillableParse as well. *)
Theorem C53_format_parse : forall T S (fmt : T -> S) (fn : S -> T * err) (o : option T), (forall v, fn (fmt v) = (v, None)) ->
  StringToTimePtr fn (Format fmt o) None = Ret (o, None) /\ NillableParse fn (Format fmt o) None = Ret (o, None).
Proof. intros T S fmt fn [v|] E; cbn [Format StringToTimePtr NillableParse]; [rewrite E|]; split; reflexivity. Qed.
Print Assumptions C53_format_parse.
Example C53_format_parse_ex : (forall v, (fun x => ((x - 1)%Z, @None rerr)) ((fun x => x + 1)%Z v) = (v, None)) /\ Format (fun x => x + 1)%Z (Some 4%Z) = Some 5%Z.
Proof. split; [intro v; f_equal; lia|reflexivity]. Qed.

(** "An optional field that is nil is read as nil" is false for three of the adapters, and "conversions never
    truncate" is false. *)
Theorem C53_refuted : let nil := new_dr [0xc0%N] in
  field_nillable (NillableNumeric t_int32) ReadInt32 nil = Panic /\
  field_nillable (Nillable (fun b : bool => b)) ReadBool nil = Panic /\
  field_nillable (Nillable (fun s : bytes => s)) ReadString nil = Panic /\
  field_nillable (NillableParse (fun s : bytes => (s, None))) ReadString nil = Ret (None, None) /\
  field 0%Z (Numeric t_int8) ReadInt32 (new_dr [0xd1; 1; 44]%N) = Ret (44, None)%Z.
Proof. vm_compute. repeat split. Qed.
Print Assumptions C53_refuted.
Example C53_ex : becomes true 8 300 44 /\ in_type true 8 (-128) /\ signed_here (-2147483648) 2147483647 [0xd1; 1; 44]%N 300 /\
  field_nillable (NillableNumeric t_int64) ReadInt32 (new_dr [0xd1; 1; 44]%N) = Ret (Some 300, None)%Z /\
  text_here [0xa2; 104; 105; 7]%N [104; 105]%N /\
  field_nillable (Nillable (fun s : bytes => s)) ReadString (new_dr [0xa2; 104; 105; 7]%N) = Ret (Some [104; 105]%N, None) /\
  field_nillable (Nillable (fun s : bytes => s)) ReadString (new_dr [7]%N) = Panic.
Proof.
  split; [split; [unfold in_type; lia|exists 1%Z; reflexivity]|]. split; [unfold in_type; lia|].
  split; [split; [lia|exists Int16, []; repeat split; cbn; lia]|]. split; [vm_compute; reflexivity|].
  split; [exists [0xa2%N], [7%N]; split; [left; exists InTag; split; reflexivity|reflexivity]|].
  split; vm_compute; reflexivity.
Qed.
