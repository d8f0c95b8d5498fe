(** Model of fire-and-forget calls from one module to another through the mesh: go/transport/wasmrs/mesh/mesh.go:77-90 (Mesh.FireAndForget) and 271-277
    (destination.FireAndForget), go/transport/wasmrs/host/caller.go:42-51 and host/instance.go:467-492, on top of the calls between a host instance and its
    guest ([FnfModel]) and the linking of [MeshModel].  Code only; no proofs.

    Every loaded module is a pair of peers, its host instance and its guest, as in [RelayModel]: the handlers of a host instance are the destinations it has
    been linked to, those of a guest are its own.  The application that owns the mesh fires calls too, at the mesh or at a host instance.
    Simplifications: those of [FnfModel]; that the goroutine of handleFireAndForget runs a destination, which sends the request to the other guest, is one
    move; all modules have been loaded before; the bytes of a request are values, which the index is put into (their being slices of a pooled buffer is
    the subject of Recycle). *)
From Coq Require Import List NArith Bool.
From Verif Require Import Base FramesModel OperationsModel InvokeModel LookupModel StreamIdModel ProxyModel DispatchModel MeshModel CallModel RelayModel FnfModel.
Import ListNotations.
Open Scope N_scope.

Section FnfRelay.
Context {G : Type}.
Context (m : mesh).                                    (* as linked *)
Context (exported : nat -> ikind -> list (option G)).  (* the guests' handlers *)

(** What the application has fired: at the mesh, by name, or at a host instance; [None] is nil metadata. *)
Inductive ask := AskMesh (x : info) (data : bytes) (md : option bytes) | AskHost (i : nat) (data md : bytes).
Record frelay := mkFRelay { z_nets : list (fnet (destination + G)); z_asks : list ask }.
Definition frelay_create (n : nat) : frelay := mkFRelay (repeat fnet_create n) [].

Inductive zmove :=
| ZNet (i : nat) (mv : fmove)       (* anything in instance i and its guest, except runs of destinations and calls by the instance *)
| ZForward (i j : nat)              (* the j-th goroutine of host instance i, which is to run a destination *)
| ZAsk (a : ask).

Definition is_run (a : act (destination + G) unit) : bool := match a with ARun _ _ _ _ _ _ _ => true | _ => false end.
Definition own_fmove (st : fnet (destination + G)) (mv : fmove) : bool :=
  match mv with
  | MFTask Server j => match nth_error (fp_tasks (fn_peer st Server)) j with Some l => negb (existsb is_run l) | None => true end
  | MFire Server _ _ => false
  | _ => true
  end.
Definition fnet_move (nets : list (fnet (destination + G))) (i : nat) (mv : fmove) : option (list (fnet (destination + G))) :=
  match nth_error nets i with
  | Some st => match do_fmove relay_site (relay_tbl m exported i) st mv with Some st' => Some (put_nth nets i st') | None => None end
  | None => None
  end.
(** mesh.go:271-277; p.Metadata() of a payload without metadata is nil, which is sent as no bytes. *)
Definition dest_fire (nets : list (fnet (destination + G))) (d : destination) (data : bytes) (md : option bytes) : option (list (fnet (destination + G))) :=
  match redirect d md with
  | Ret md' => fnet_move nets (d_inst d) (MFire Server data (match md' with Some b => b | None => [] end))
  | _ => None
  end.
Definition do_zmove (r : frelay) (mv : zmove) : option frelay :=
  match mv with
  | ZNet i mv =>
    match nth_error (z_nets r) i with
    | Some st => if own_fmove st mv then match fnet_move (z_nets r) i mv with Some nets => Some (mkFRelay nets (z_asks r)) | None => None end else None
    | None => None
    end
  (* instance.go:490-491, mesh.go:271-277 *)
  | ZForward i j =>
    match nth_error (z_nets r) i with
    | Some st =>
      match nth_error (fp_tasks (fn_peer st Server)) j with
      | Some [ARun _ (inl d) _ data md _ _] =>
        match fnet_move (z_nets r) i (MFTask Server j) with
        | Some nets => match dest_fire nets d data (Some md) with Some nets' => Some (mkFRelay nets' (z_asks r)) | None => None end
        | None => None
        end
      | _ => None
      end
    | None => None
    end
  (* mesh.go:77-90: nothing happens if there is no such export *)
  | ZAsk (AskMesh x data md) =>
    match mesh_request m x with
    | Some d => match dest_fire (z_nets r) d data md with Some nets => Some (mkFRelay nets (z_asks r ++ [AskMesh x data md])) | None => None end
    | None => Some (mkFRelay (z_nets r) (z_asks r ++ [AskMesh x data md]))
    end
  | ZAsk (AskHost i data md) =>
    match fnet_move (z_nets r) i (MFire Server data md) with Some nets => Some (mkFRelay nets (z_asks r ++ [AskHost i data md])) | None => None end
  end.
Fixpoint do_zmoves (r : frelay) (ms : list zmove) : option frelay :=
  match ms with [] => Some r | mv :: ms' => match do_zmove r mv with Some r' => do_zmoves r' ms' | None => None end end.
End FnfRelay.
Arguments frelay : clear implicits.
