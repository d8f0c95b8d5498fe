(** Model of modules made with this library as a mesh of them runs: nothing but the models put together.  Each module is what its code registers (go/invoke,
    [InvokeModel]); NewInstance makes its instance ([BootModel]); the instances' tables are what the mesh links (mesh.go:128-136 with host/instance.go Operations,
    [MeshModel]); and the guests' handlers are those it registered ([RelayModel]).  Code only; no proofs. *)
From Coq Require Import List NArith.
From Verif Require Import Base OperationsModel InvokeModel BootModel.
Import ListNotations.
Open Scope N_scope.

Section Names.
Context {G : Type}.
(** A module: what it registers, and where its memory has the buffers. *)
Record package := mkPackage { k_calls : list (icall G); k_place : placing }.
Definition built (k : package) : module := library_module (irun (k_calls k)) (k_place k).
Definition guest_handlers (ks : list package) (j : nat) (k : ikind) : list (option G) :=
  match nth_error ks j with
  | Some p => match k with RR => rr_handlers | FNF => fnf_handlers | RS => rs_handlers | RC => rc_handlers end (irun (k_calls p))
  | None => []
  end.
End Names.
Arguments package : clear implicits.
