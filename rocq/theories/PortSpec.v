(** Layout of a port message: one flag byte, a 16-bit port name length, the name, the data. *)
From Coq Require Import List NArith Bool.
From Verif Require Import Base FramesSpec PortModel.
Import ListNotations.
Open Scope N_scope.

(** [flag] bytes carry one mark in their lowest bit. *)
Definition port_bytes (flag : N) (port data : bytes) : bytes := [flag] ++ bytes2 (len port) ++ port ++ data.
