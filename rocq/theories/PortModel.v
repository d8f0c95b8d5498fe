(** Model of go/invoke/portio.go. *)
From Coq Require Import List NArith Bool.
From Verif Require Import Base OperationsModel.
Import ListNotations.
Open Scope N_scope.

(** go/invoke/portio.go:8-13 PortIO. *)
Record port_io := mkPort { p_port : bytes; p_data : bytes; p_complete : bool; p_next : bool }.

(** go/invoke/portio.go:73-76: the second constant repeats the expression of the first. *)
Definition PFlagNext : N := 1.
Definition PFlagComplete : N := 1.

(** go/invoke/portio.go:79-81 Flags.Check. *)
Definition pcheck (f flag : N) : bool := N.land flag f =? flag.

(** go/invoke/portio.go:15-33 PortIO.Decode; it never returns an error. *)
Definition PortDecode (data : bytes) : outcome no_err port_io :=
  do flags <- index data 0 ;
  let complete := pcheck flags PFlagComplete in
  let next := pcheck flags PFlagNext in
  do data <- slice_from data 1 ;
  do portLength <- get_be 2 data ;
  do data <- slice_from data 2 ;
  do port <- slice_to data portLength ;
  do data <- slice_from data portLength ;
  Ret (mkPort port data complete next).

(** go/invoke/portio.go:35-56 PortIO.Encode. *)
Definition PortEncode (f : port_io) : outcome no_err bytes :=
  let buf := repeat 0 (N.to_nat (3 + len (p_port f) + len (p_data f))) in
  let flags := N.lor (if p_complete f then PFlagComplete else 0) (if p_next f then PFlagNext else 0) in
  do buf <- put_at buf 0 [u8 flags] ;
  do off <- advance buf 0 1 ;
  do buf <- put_at buf off (be 2 (u16 (len (p_port f)))) ;
  do off <- advance buf off 2 ;
  do buf <- copy_at buf off (p_port f) ;
  do off <- advance buf off (len (p_port f)) ;
  copy_at buf off (p_data f).
