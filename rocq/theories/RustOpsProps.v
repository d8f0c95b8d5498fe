(** C80: the Rust and the Go implementation read each other's operation lists. *)
From Coq Require Import List NArith ZArith Lia Bool ZifyBool ZifyNat ZifyN.
From Verif Require Import Base BaseLemmas FramesSpec FramesProofs CustomSpec RustFramesModel OperationsModel OperationsSpec OperationsProofs RustOpsModel RustOpsSpec RustOpsProofs.
Import ListNotations.
Open Scope N_scope.

(** What Rust reads out of any bytes: the entries one after the other, with a two-byte field behind each that it does not follow. *)
Theorem C80_rust_reads : forall buf l, wf buf ->
  (rops_decode buf = Ret l <-> exists t body, len t < 2^32 /\ buf = preamble (len t) ++ body /\ rust_holds t body /\ l = rust_list t).
Proof. exact rops_decode_iff. Qed.
Print Assumptions C80_rust_reads.

(** A table written by Go is read by Rust exactly when its types are the four known ones and its names are UTF-8; then Rust has every entry, in order. *)
Theorem C80_go_to_rust : forall t l, Forall op_in_range t -> Forall names_fit t -> table_size t < 2^32 ->
  exists bs, ToBytes t = Ret bs /\ (rops_decode bs = Ret l <-> Forall rust_accepts t /\ l = rust_list t).
Proof.
  intros t l R F S. exists (table_bytes t). split; [apply ToBytes_spec; [assumption|apply op_range_fits; assumption]|].
  apply table_read_iff; [assumption|assumption|]. assert (Q := len_le_size t). lia.
Qed.
Print Assumptions C80_go_to_rust.
Definition two_ops : list operation := [mkOp 0 1 1 [97] [98]; mkOp 7 4 2 [99] [100; 101]].
Example C80_go_to_rust_ex : Forall op_in_range two_ops /\ Forall names_fit two_ops /\ table_size two_ops = 39
  /\ exists bs, ToBytes two_ops = Ret bs /\ rops_decode bs = Ret (mkRopList [mkRop 7 KRequestChannel [99] [100; 101]] [mkRop 0 KRequestResponse [97] [98]]).
Proof.
  split; [repeat constructor; cbn; lia|]. split; [repeat constructor; cbn; lia|]. split; [reflexivity|].
  eexists. split; vm_compute; reflexivity.
Qed.
Theorem C80_unknown_type_refuted : exists t bs, Forall op_in_range t /\ Forall names_fit t /\ ToBytes t = Ret bs /\ FromBytes bs = Ret t /\ rops_decode bs = Panic.
Proof.
  exists [mkOp 0 5 1 [97] [98]]. eexists. split; [repeat constructor; cbn; lia|]. split; [repeat constructor; cbn; lia|]. split; [vm_compute; reflexivity|]. vm_compute. auto.
Qed.
Print Assumptions C80_unknown_type_refuted.

(** A list written by Rust is read by Go: the exports, then the imports, with their indexes, kinds and names. Rust reads it back too. *)
Theorem C80_rust_to_go : forall l, all_ops rop_in_range l -> len (ro_imports l) + len (ro_exports l) < 2^32 ->
  FromBytes (rops_encode l) = Ret (go_table l) /\ (all_ops rop_text l -> rops_decode (rops_encode l) = Ret l).
Proof.
  intros l A L. rewrite (rops_encode_table l A L).
  assert (R : Forall op_in_range (go_table l)).
  { apply go_table_all. intros d o D I. apply go_op_range; [lia|]. exact (all_in _ _ _ A I). }
  assert (F : Forall names_fit (go_table l)).
  { apply go_table_all. intros d o D I. apply (go_op_range d); [lia|]. exact (all_in _ _ _ A I). }
  assert (NL : len (go_table l) < 2^32).
  { unfold go_table. rewrite len_app. unfold len in *. rewrite !map_length. lia. }
  split.
  - assert (Q := FromBytes_with_reserved (map (fun o => (o, [])) (go_table l)) []). rewrite map_map in Q. cbn [fst] in Q. rewrite map_id in Q. rewrite app_nil_r in Q.
    assert (E : table_bytes_with (map (fun o => (o, [])) (go_table l)) = table_bytes (go_table l)).
    { unfold table_bytes_with, table_bytes. unfold len at 1. rewrite map_length, map_map. fold (len (go_table l)). reflexivity. }
    rewrite E in Q. apply Q; [assumption|assumption| |unfold len in *; rewrite map_length; assumption].
    apply Forall_forall. intros x I. apply in_map_iff in I as (o & <- & _). change (len (@nil N)) with 0. lia.
  - intros T. apply table_read_iff; [assumption|assumption|assumption|]. split; [|symmetry; apply rust_go_round].
    apply go_table_all. intros d o D I. destruct (all_in _ _ _ T I) as [U1 U2]. split; [|split; assumption]. unfold go_op. cbn [op_type]. destruct (ro_kind o); cbn; lia.
Qed.
Print Assumptions C80_rust_to_go.
Definition rust_two : roplist := add_import (add_export (mkRopList [] []) 0 KRequestStream [97] [98]) 3 KRequestFnF [99] [100].
Example C80_rust_to_go_ex : FromBytes (rops_encode rust_two) = Ret [mkOp 0 3 1 [97] [98]; mkOp 3 2 2 [99] [100]] /\ rops_decode (rops_encode rust_two) = Ret rust_two.
Proof. vm_compute. auto. Qed.

(** A wrong preamble is refused by both, for the same reason. *)
Theorem C80_same_refusal : forall buf, (rops_decode buf = Fail RMagic <-> FromBytes buf = Fail ErrInvalidMagicNumber)
  /\ (rops_decode buf = Fail RVersion <-> exists v, FromBytes buf = Fail (ErrUnknownVersion v)).
Proof. intros buf. split; [apply magic_same|apply version_same]. Qed.
Print Assumptions C80_same_refusal.
Example C80_same_refusal_ex : rops_decode [0;119;114;115;0;2] = Fail RVersion /\ FromBytes [0;119;114;115;0;2] = Fail (ErrUnknownVersion 2).
Proof. vm_compute. auto. Qed.

(** Reserved bytes, which Go skips, Rust takes for the next entry. *)
Theorem C80_reserved_refuted : exists t, Forall op_in_range (map fst t) /\ Forall names_fit (map fst t) /\ Forall rust_accepts (map fst t)
  /\ FromBytes (table_bytes_with t) = Ret (map fst t) /\ rops_decode (table_bytes_with t) <> Ret (rust_list (map fst t)).
Proof.
  assert (U : forall c, c < 128 -> utf8 [c]).
  { intros c H. exists [c]. split; [constructor; [left; lia|constructor]|]. cbn [flat_map app]. unfold utf8_char. destruct (N.ltb_spec c 0x80); [reflexivity|lia]. }
  exists [(mkOp 0 1 1 [97] [98], [4]); (mkOp 1 1 1 [99] [100], [])]. cbn [map fst].
  split; [repeat constructor; cbn; lia|]. split; [repeat constructor; cbn; lia|].
  split; [constructor; [|constructor; [|constructor]]; (split; [cbn; lia|]; split; apply U; lia)|].
  split; [vm_compute; reflexivity|]. vm_compute. discriminate.
Qed.
Print Assumptions C80_reserved_refuted.

(** Rust truncates the length of a long name but not the name. *)
Theorem C80_long_name_refuted : exists l, len (ro_exports l) = 1 /\ all_ops rop_text l /\ rops_decode (rops_encode l) <> Ret l /\ FromBytes (rops_encode l) <> Ret (go_table l).
Proof.
  exists (mkRopList [] [mkRop 0 KRequestResponse (repeat 97 (N.to_nat 65536)) [98]]). split; [reflexivity|].
  assert (U : utf8 (repeat 97 (N.to_nat 65536)) /\ utf8 [98]).
  { split; apply CustomProofs.valid_iff; vm_compute; reflexivity. }
  split; [split; [constructor; [exact U|constructor]|constructor]|].
  assert (A : match rops_decode (rops_encode (mkRopList [] [mkRop 0 KRequestResponse (repeat 97 (N.to_nat 65536)) [98]])) with Ret l => length (concat (map ro_ns (ro_exports l))) = O | _ => True end) by (vm_compute; reflexivity).
  assert (B : match FromBytes (rops_encode (mkRopList [] [mkRop 0 KRequestResponse (repeat 97 (N.to_nat 65536)) [98]])) with Ret t => length (concat (map op_ns t)) = O | _ => True end) by (vm_compute; reflexivity).
  split; intros E.
  - rewrite E in A. cbn [ro_exports map concat ro_ns] in A. rewrite app_nil_r, repeat_length in A. lia.
  - rewrite E in B. unfold go_table in B. cbn [ro_exports ro_imports map app concat op_ns go_op ro_ns] in B. rewrite app_nil_r, repeat_length in B. lia.
Qed.
Print Assumptions C80_long_name_refuted.

(** Looking an operation up answers the index of the first entry of that name, whatever its kind. *)
Theorem C80_lookup : forall l ns nm i, get_export l ns nm = Some i <->
  exists before o after, ro_exports l = before ++ o :: after /\ ro_ns o = ns /\ ro_name o = nm /\ ro_index o = i /\ Forall (fun x => ~ (ro_ns x = ns /\ ro_name x = nm)) before.
Proof. intros l. exact (get_op_spec (ro_exports l)). Qed.
Print Assumptions C80_lookup.
Theorem C80_lookup_kind_refuted : exists l o, In o (ro_exports l) /\ (forall x, In x (ro_exports l) -> ro_kind x = ro_kind o -> x = o)
  /\ get_export l (ro_ns o) (ro_name o) <> Some (ro_index o).
Proof.
  exists (mkRopList [] [mkRop 3 KRequestResponse [97] [98]; mkRop 0 KRequestStream [97] [98]]), (mkRop 0 KRequestStream [97] [98]). cbn [ro_exports].
  split; [right; left; reflexivity|]. split; [|vm_compute; discriminate]. intros x [<-|[<-|[]]] K; [discriminate|reflexivity].
Qed.
Print Assumptions C80_lookup_kind_refuted.

(** The metadata both sides put on a request names the operation's index; shorter metadata crashes the Rust side. *)
Theorem C80_metadata : forall i rest, i < 2^32 -> parse_metadata (E := rerr) (metadata_encode i ++ rest) = Ret i /\ metadata_encode i = bytes4 i ++ [0;0;0;0]
  /\ parse_metadata (E := rerr) (bytes4 i ++ rest) = Ret i /\ forall md, (parse_metadata (E := rerr) md = Panic <-> len md < 4).
Proof.
  intros i rest H. assert (P : forall x, parse_metadata (E := rerr) (bytes4 i ++ x) = Ret i).
  { intros x. unfold parse_metadata. rewrite len_app. change (len (bytes4 i)) with 4. destruct (N.leb_spec 4 (4 + len x)); [|lia]. change (firstn 4 (bytes4 i ++ x)) with (bytes4 i). rewrite unbe_bytes4 by exact H. reflexivity. }
  unfold metadata_encode. rewrite be4_bytes4, <- app_assoc. split; [apply P|]. split; [reflexivity|]. split; [apply P|].
  intros md. unfold parse_metadata. destruct (N.leb_spec 4 (len md)); split; intros; try discriminate; try lia; reflexivity.
Qed.
Print Assumptions C80_metadata.
