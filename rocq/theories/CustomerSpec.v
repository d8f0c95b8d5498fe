(** What the example modules of the mesh owe each other and their caller. *)
From Coq Require Import Ascii String List NArith Bool.
From Verif Require Import Base FramesModel OperationsModel InvokeModel StreamIdModel MonoModel MeshModel OutcomeModel ProxyModel DispatchModel CallModel CallSpec RelayModel RelaySpec.
From Verif Require Import MsgpackModel TransformModel TransformSpec StubModel StubSpec CustomerModel.
Import ListNotations.
Open Scope N_scope.

Section Spec.
Context (f64to32 : N -> N) (pt : bytes -> option gtime) (text : rerr -> bytes).

(** The string a caller makes of an answer if it does not look at errors. *)
Definition string_of (o : pay + bytes) : bytes :=
  match o with inl (data, _) => match transform_decode f64to32 pt KStr data with Ret (SStr s) => s | _ => [] end | inr _ => [] end.

(** The answers that count: the first for call number [k], then the first later one for the next, and so on, of [n] calls. *)
Fixpoint in_turn (n k : nat) (acts : list (nat * (pay + bytes))) : list (pay + bytes) :=
  match n, acts with
  | O, _ | _, [] => []
  | S n', (i, o) :: acts' => if Nat.eqb i k then o :: in_turn n' (S k) acts' else in_turn n k acts'
  end.

(** Strings short enough that records of them are shorter than 4 GiB. *)
Definition short (s : bytes) : Prop := wf s /\ len s < 2^30.

(** ** Executions of the mesh in which the three modules do what their code says *)
Context (op_concat op_greeting : N).
(** The handlers of all guests. *)
Inductive handler := HConcat | HGreeting | HCustomer | HOther (n : N).

(** A run of a handler [x] in the guest [st] ends with [o]: the customer module's, after answers that calls of this very guest have seen. *)
Definition ends_with (st : net (destination + handler)) (x : run (destination + handler)) (o : pay + bytes) : Prop :=
  match r_handler x with
  | inr HConcat => wrapper_answers f64to32 pt text concat_service (r_sid x) (r_data x) = [o]
  | inr HGreeting => wrapper_answers f64to32 pt text greeting_service (r_sid x) (r_data x) = [o]
  | inr HCustomer => exists acts, customer_answers f64to32 pt text op_concat op_greeting (r_data x) acts = [o] /\
      forall j a, In (j, a) acts -> exists c, In c (p_calls (n_peer st Client)) /\ nth_error (customer_sends f64to32 pt text op_concat op_greeting (r_data x) acts) j = Some (c_data c, c_md c) /\ In a (CallSpec.results c)
  | _ => True
  end.
Definition performs (r : relay handler) (mv : rmove) : Prop :=
  match mv with
  | RNet i (MConclude Client k o) => forall st x, nth_error (y_nets r) i = Some st -> nth_error (p_runs (n_peer st Client)) k = Some x -> ends_with st x o
  | _ => True
  end.
Inductive customer_reach (m : mesh) (exported : nat -> ikind -> list (option handler)) (n : nat) : relay handler -> Prop :=
| cr_init : customer_reach m exported n (relay_create n)
| cr_move : forall r mv r', customer_reach m exported n r -> relay_allowed r mv -> performs r mv -> do_relay m exported r mv = Some r' -> customer_reach m exported n r'.

(** The import number [op] of module [i] is linked to a handler [h]. *)
Definition linked_to (m : mesh) (exported : nat -> ikind -> list (option handler)) (i : nat) (op : N) (h : handler) : Prop :=
  exists d, nth_error (m_tabs m i RR) (N.to_nat op) = Some (Some d) /\ nth_error (exported (d_inst d) RR) (N.to_nat (d_index d)) = Some (Some h).
End Spec.

(** "Hello, First Last" *)
Definition hello (first last : bytes) : bytes := str "Hello, " ++ first ++ str " " ++ last.
