(** What becomes of what is fired through the mesh. *)
From Coq Require Import List NArith Bool.
From Verif Require Import Base FramesModel FramesSpec OperationsModel InvokeModel StreamIdModel ProxyModel DispatchModel DispatchSpec MeshModel CallModel CallSpec RelayModel FnfModel FnfSpec FnfRelayModel.
Import ListNotations.
Open Scope N_scope.

Section Spec.
Context {G : Type}.
Context (m : mesh) (exported : nat -> ikind -> list (option G)).
Notation fnet := (fnet (destination + G)).

(** Meshes of [n] modules whose tables make sense: fewer than 2^32 handlers each, links and exports of loaded modules with indices that are uint32s. *)
Definition fmesh_ok (n : nat) : Prop :=
  (forall i k, len (m_tabs m i k) < 2^32 /\ len (exported i k) < 2^32) /\
  (forall i k d, In (Some d) (m_tabs m i k) -> (d_inst d < n)%nat /\ d_index d < 2^32) /\
  (forall x d, mesh_request m x = Some d -> (d_inst d < n)%nat /\ d_index d < 2^32).

(** Something run in a guest: the module, the handler, the data and the metadata it was given. *)
Definition effect : Type := nat * G * bytes * bytes.
Definition at_slot {A} (l : list (option A)) (n : N) : option A := match nth_error l (N.to_nat n) with Some x => x | None => None end.
(** What should be run for a request for the export [d]. *)
Definition export_effect (d : destination) (data md : bytes) : list effect :=
  match at_slot (exported (d_inst d) FNF) (d_index d) with Some g => [(d_inst d, g, data, skipn 8 md)] | None => [] end.
(** What should be run for a call fired by the guest of module [i]: nothing, if the metadata are too short or name no linked import. *)
Definition call_effect (i : nat) (c : fcall) : list effect :=
  if len (fc_md c) <? 8 then [] else match at_slot (m_tabs m i FNF) (number4 (fc_md c)) with Some d => export_effect d (fc_data c) (fc_md c) | None => [] end.
(** And for what the application fires. *)
Definition ask_effect (a : ask) : list effect :=
  match a with
  | AskMesh x data (Some md) => if len md <? 8 then [] else match mesh_request m x with Some d => export_effect d data md | None => [] end
  | AskMesh _ _ None => []
  | AskHost i data md => if len md <? 8 then [] else export_effect (mkDest i (number4 md)) data md
  end.

(** Over all modules. *)
Fixpoint over_from {A} (k : nat) (f : nat -> fnet -> list A) (l : list fnet) : list A := match l with [] => [] | st :: l' => f k st ++ over_from (S k) f l' end.
Definition over {A} (f : nat -> fnet -> list A) (r : frelay G) : list A := over_from 0 f (z_nets r).
Definition due (r : frelay G) : list effect := over (fun i st => flat_map (call_effect i) (fp_calls (fn_peer st Client))) r ++ flat_map ask_effect (z_asks r).
Definition run_effect (i : nat) (x : frun (destination + G)) : list effect := match fr_handler x with inr g => [(i, g, fr_data x, fr_md x)] | inl _ => [] end.
Definition done (r : frelay G) : list effect := over (fun i st => flat_map (run_effect i) (fp_runs (fn_peer st Client))) r.

(** The refusals a guest should be sent: of the calls that name no linked import, whatever the linked ones find at the other module. *)
Definition call_refusal (i : nat) (c : fcall) : list (N * bytes) :=
  if len (fc_md c) <? 8 then [(fc_sid c, invalid_metadata)] else match at_slot (m_tabs m i FNF) (number4 (fc_md c)) with Some _ => [] | None => [(fc_sid c, not_found)] end.

(** Executions in which payloads are sendable, what is asked of the mesh has room for the index if it has metadata, hosts asked are loaded, and no side makes
    more than 2^62 calls. *)
Definition ask_ok (n : nat) (a : ask) : Prop :=
  match a with
  | AskMesh x data (Some md) => sendable data md /\ (mesh_request m x <> None -> 4 <= len md)
  | AskMesh _ data None => sendable data []
  | AskHost i data md => (i < n)%nat /\ sendable data md
  end.
Definition spare (r : frelay G) : Prop := Forall (fun st : fnet => len (fp_calls (fn_peer st Server)) < 2^62) (z_nets r).
Definition zallowed (n : nat) (r : frelay G) (mv : zmove) : Prop :=
  match mv with
  | ZNet i mv => forall st, nth_error (z_nets r) i = Some st -> fallowed st mv
  | ZForward _ _ => spare r
  | ZAsk a => ask_ok n a /\ spare r
  end.
Inductive frelay_reach (n : nat) : frelay G -> Prop :=
| z_init : frelay_reach n (frelay_create n)
| z_move : forall r mv r', frelay_reach n r -> zallowed n r mv -> do_zmove m exported r mv = Some r' -> frelay_reach n r'.

Definition frelay_rest (r : frelay G) : Prop := Forall fat_rest (z_nets r).
(** Moves other than those of callers, and a bound on how many of them are left. *)
Definition zinner (mv : zmove) : bool := match mv with ZNet _ mv => finner mv | ZForward _ _ => true | ZAsk _ => false end.
Definition fnet_left (st : fnet) : nat := fwork st + 4 * (length (fp_calls (fn_peer st Client)) - length (fp_runs (fn_peer st Server))).
Definition fleft (r : frelay G) : nat := list_sum (map fnet_left (z_nets r)).
End Spec.
