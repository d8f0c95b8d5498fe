(** Properties C13-C15: operation lists and port messages. *)
From Coq Require Import List NArith Lia.
From Verif Require Import Base BaseLemmas FramesSpec OperationsModel OperationsSpec OperationsProofs PortModel PortSpec PortProofs.
Import ListNotations.
Open Scope N_scope.

Definition op_greet : operation := mkOp 7 1 1 [103;46;118;49] [115;97;121].
Definition op_big : operation := mkOp 0xFFFFFFFF 4 2 [] [255].

(** C13. A table (below 4 GiB in total) comes back unchanged exactly when all its names are at most 65535
    bytes long. *)
Theorem C13_round_trip_iff : forall t, Forall op_in_range t -> table_size t < 2^32 ->
  ((exists bs, ToBytes t = Ret bs /\ FromBytes bs = Ret t) <-> Forall names_fit t).
Proof. exact round_trip_iff. Qed.
Print Assumptions C13_round_trip_iff.
Example C13_ex : Forall op_in_range [op_greet; op_big] /\ table_size [op_greet; op_big] = 42
  /\ Forall names_fit [op_greet; op_big]
  /\ ToBytes [op_big] = Ret [0;119;114;115; 0;1; 0;0;0;1; 4;2; 255;255;255;255; 0;0; 0;1;255; 0;0].
Proof.
  unfold op_in_range, names_fit.
  repeat split; try (apply wfb_wf; reflexivity); try reflexivity;
    repeat (constructor; [repeat split; try (apply wfb_wf; reflexivity); try reflexivity; discriminate|]); constructor.
Qed.

(** Whatever the lengths: what comes back is the table with every name cut to its length modulo 65536. *)
Theorem C13_long_names : forall t, Forall op_in_range t -> table_size t < 2^32 ->
  exists bs, ToBytes t = Ret bs /\ FromBytes bs = Ret (map cut t).
Proof. exact long_names_proof. Qed.
Print Assumptions C13_long_names.
Definition op_long : operation := mkOp 5 1 1 (repeat 65 (N.to_nat 65538)) [66].
Example C13_long_names_ex : Forall op_in_range [op_long; op_big] /\ table_size [op_long; op_big] < 2^32
  /\ map cut [op_long; op_big] = [mkOp 5 1 1 [65; 65] [66]; op_big].
Proof.
  assert (A : forall l, wf l -> op_in_range (mkOp 5 1 1 l [66])) by (intros l H; unfold op_in_range; cbn [op_index op_type op_dir op_ns op_name]; repeat split; try reflexivity; [exact H|repeat constructor]).
  split; [|split; vm_compute; reflexivity].
  constructor; [apply A; apply wf_repeat; reflexivity|]. repeat constructor; reflexivity.
Qed.

(** The bytes written are those of the documented format. *)
Theorem C13_bytes : forall t, Forall op_in_range t -> Forall names_fit t -> table_size t < 2^32 ->
  ToBytes t = Ret (table_bytes t).
Proof. intros. apply ToBytes_spec; [assumption|apply op_range_fits; assumption]. Qed.
Print Assumptions C13_bytes.

Theorem C13_injective : forall t t' bs, Forall op_in_range t -> Forall op_in_range t' ->
  Forall names_fit t -> Forall names_fit t' -> table_size t < 2^32 -> table_size t' < 2^32 ->
  ToBytes t = Ret bs -> ToBytes t' = Ret bs -> t = t'.
Proof. exact ToBytes_injective. Qed.
Print Assumptions C13_injective.

(** Reserved fields (below 65534 bytes) written by a newer peer, and anything after the table, are ignored. *)
Theorem C13_reserved_skipped : forall t rest, Forall op_in_range (map fst t) -> Forall names_fit (map fst t) ->
  Forall (fun '(_, r) => len r < 65534) t -> len t < 2^32 ->
  FromBytes (table_bytes_with t ++ rest) = Ret (map fst t).
Proof. exact FromBytes_with_reserved. Qed.
Print Assumptions C13_reserved_skipped.
Example C13_reserved_ex : FromBytes (table_bytes_with [(op_greet, [1;2;3]); (op_big, [])] ++ [9;9])
  = Ret [op_greet; op_big].
Proof. vm_compute. reflexivity. Qed.

(** C14. A table is returned exactly when the bytes are the preamble and hold its entries in order. *)
Theorem C14_returns_only_what_is_there : forall buf t, wf buf ->
  (FromBytes buf = Ret t <->
   exists body, len t < 2^32 /\ buf = preamble (len t) ++ body /\ holds_entries t body).
Proof. exact FromBytes_iff. Qed.
Print Assumptions C14_returns_only_what_is_there.

(** An error is returned exactly for a foreign magic number or a foreign version. *)
Theorem C14_error_iff : forall buf e, wf buf ->
  (FromBytes buf = Fail e <->
   (e = ErrInvalidMagicNumber /\ exists m r, buf = m ++ r /\ len m = 4 /\ m <> [0; 119; 114; 115])
   \/ (exists v r, e = ErrUnknownVersion v /\ buf = [0; 119; 114; 115] ++ bytes2 v ++ r /\ v < 65536 /\ v <> 1)).
Proof. exact FromBytes_fail_iff. Qed.
Print Assumptions C14_error_iff.
Example C14_ex : FromBytes [0;119;114;116;0;1] = Fail ErrInvalidMagicNumber
  /\ FromBytes [0;119;114;115;1;1;9] = Fail (ErrUnknownVersion 257).
Proof. vm_compute. auto. Qed.

(** "Never panics" is false: short input and truncated tables panic. *)
Theorem C14_no_panic_refuted : exists b1 b2, wf b1 /\ wf b2 /\ len b1 = 3 /\ FromBytes b1 = Panic
  /\ len b2 = 12 /\ FromBytes b2 = Panic.
Proof.
  exists [0;119;114], [0;119;114;115;0;1;0;0;0;1;1;1].
  repeat split; try (apply wfb_wf; reflexivity); reflexivity.
Qed.
Print Assumptions C14_no_panic_refuted.

(** "A reserved field of any 16-bit length is skipped" is false: one of 65534 bytes is read as entries. *)
Theorem C14_reserved_skipped_refuted : exists o r, wf r /\ len r = 65534 /\ op_in_range o /\ names_fit o
  /\ FromBytes (table_bytes_with [(o, r); (o, [])]) <> Ret [o; o].
Proof.
  exists (mkOp 1 1 1 [] []), (repeat 0 (N.to_nat 65534)). unfold op_in_range, names_fit.
  split; [apply wf_repeat; lia|]. split; [rewrite len_repeat; lia|].
  split; [cbn; repeat split; try lia; constructor|]. split; [cbn; lia|].
  vm_compute. discriminate.
Qed.
Print Assumptions C14_reserved_skipped_refuted.

(** C15. Port name and data survive; a port message comes back unchanged exactly when its name is at most
    65535 bytes and its two marks agree. *)
Theorem C15_round_trip_iff : forall p, wf (p_port p) -> wf (p_data p) -> exists bs, PortEncode p = Ret bs
  /\ (PortDecode bs = Ret p <-> len (p_port p) <= 65535 /\ p_complete p = p_next p).
Proof. exact port_round_trip_iff. Qed.
Print Assumptions C15_round_trip_iff.
Theorem C15_contents_survive : forall p, len (p_port p) <= 65535 ->
  exists bs, PortEncode p = Ret bs /\ PortDecode bs =
    Ret (mkPort (p_port p) (p_data p) (p_complete p || p_next p) (p_complete p || p_next p)).
Proof. exact port_contents_survive. Qed.
Print Assumptions C15_contents_survive.
Example C15_ex : PortEncode (mkPort [105;110] [7;8;9] true false) = Ret [1;0;2;105;110;7;8;9]
  /\ PortDecode [1;0;2;105;110;7;8;9] = Ret (mkPort [105;110] [7;8;9] true true).
Proof. vm_compute. auto. Qed.

(** The receiver can never tell the next mark from the complete mark. *)
Theorem C15_marks_never_differ : forall bs p, wf bs -> PortDecode bs = Ret p -> p_complete p = p_next p.
Proof. exact port_marks_never_differ. Qed.
Print Assumptions C15_marks_never_differ.

(** Decoding panics exactly on bytes that are not a port message. *)
Theorem C15_decode_panics_iff : forall bs, wf bs ->
  (PortDecode bs = Panic <-> forall fl port data, len port <= 65535 -> bs <> port_bytes fl port data).
Proof. exact port_decode_panics_iff. Qed.
Print Assumptions C15_decode_panics_iff.
Example C15_panic_ex : PortDecode [0; 0] = Panic /\ PortDecode [0;0;5;1;2;3;4] = Panic.
Proof. vm_compute. auto. Qed.
