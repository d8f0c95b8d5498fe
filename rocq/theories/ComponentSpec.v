(** Specification of the example components: what a caller is sent for the messages it sends. *)
From Coq Require Import String List NArith Bool Permutation Sorted.
From Verif Require Import Base OperationsModel MsgpackModel MsgpackSpec PortSpec ComponentModel.
Import ListNotations.
Open Scope N_scope.

(** [md] is the metadata of a message for the port [port]; [mark] is the lowest bit of its flags. *)
Definition addressed (md port : bytes) (mark : bool) : Prop :=
  exists fl rest, md = port_bytes fl port rest /\ len port <= 65535 /\ N.odd fl = mark.

(** A string in MessagePack. *)
Definition str_bytes (s : bytes) : bytes := mv_bytes (scal_mv (SStr s)).
(** A message on a port, marked. *)
Definition message (port data : bytes) : oev := ONext data (port_bytes 1 port []).
(** The record {word, count} in MessagePack. *)
Definition count_bytes (w : bytes) (c : N) : bytes :=
  [0x82] ++ str_bytes (name "word") ++ str_bytes w ++ str_bytes (name "count") ++ mv_bytes (scal_mv (SU64 c)).
(** The message that announces the end of the counts. *)
Definition end_message : oev := message (name "counts") [].
(** Strings of bytes that a guest can hold. *)
Definition holds (s : bytes) : Prop := len s < 2^31 /\ wf s.

Definition event_wf (e : iev) : Prop := match e with INext d md => wf d /\ wf md | _ => True end.

Local Open Scope list_scope.
Section Input.
Context {A : Type} (port : bytes) (decode : bytes -> outcome rerr A).

(** Messages that are not for the port, or not marked. *)
Definition idle (e : iev) : Prop :=
  match e with INext _ md => exists p m, addressed md p m /\ (p <> port \/ m = false) | _ => False end.
(** The metadata of every message can be read and the reader of the values does not panic, until the input ends. *)
Fixpoint survives (l : list iev) : Prop :=
  match l with
  | [] => True
  | INext d md :: l' => (exists p m, addressed md p m /\ (p = port -> m = true -> decode d <> Panic)) /\ survives l'
  | ICancel :: l' => survives l'
  | (IComplete | IError) :: _ => True
  end.
(** Everything the values are turned into fits into the guest. *)
Definition short (f : A -> bytes) (l : list iev) : Prop :=
  forall d md a, In (INext d md) l -> decode d = Ret a -> holds (f a).
End Input.

(** ** The frequencies of words *)
Fixpoint occurrences (w : bytes) (l : list bytes) : N :=
  match l with [] => 0 | v :: l' => (if list_eq_dec N.eq_dec w v then 1 else 0) + occurrences w l' end.
(** A result of sorting from the highest to the lowest count: any order among equal counts. *)
Definition sorts (order : list (bytes * N) -> list (bytes * N)) : Prop :=
  forall l, Permutation (order l) l /\ StronglySorted (fun a b => snd b <= snd a) (order l).

(** The record {left, right} in MessagePack. *)
Definition strings_bytes (l r : bytes) : bytes :=
  [0x82] ++ str_bytes (name "left") ++ str_bytes l ++ str_bytes (name "right") ++ str_bytes r.
