(** When scaffolded services compile, said without the generator. *)
From Coq Require Import List NArith Bool.
From Verif Require Import Base OperationsModel MsgpackModel GenModel OpGenModel RegGenModel PkgGenModel PkgGenSpec ScafGenModel.
Import ListNotations.
Open Scope N_scope.

Section Spec.
Context (chosen : interface -> bool).
(** The interfaces to scaffold have this operation, with or without code. *)
Definition to_write (s : namespace) (nocode : bool) (x : op) : Prop :=
  exists i n, In i (s_interfaces s) /\ chosen i = true /\ In (mkOperation n nocode x) (f_ops i).
Definition service_code (s : namespace) : Prop := exists i o, In i (s_interfaces s) /\ f_role i = Service /\ In o (f_ops i) /\ n_nocode o = false.
(** No two imported aliases in these operations are of the same package. *)
Definition apart (imported : N -> bool) (path : N -> N) (s : namespace) : Prop :=
  forall c d x y a b p q, to_write s c x -> to_write s d y -> imported a = true -> imported b = true ->
  mentions x (TyAlias a p) -> mentions y (TyAlias b q) -> path a = path b -> a = b.
End Spec.
(** Go: each package is imported once, if it is named. *)
Definition good_imports (lines named : list pkg) : Prop := NoDup lines /\ agree lines named.
