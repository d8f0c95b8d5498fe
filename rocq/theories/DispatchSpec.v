(** What dispatching a frame should mean. *)
From Coq Require Import List NArith Bool Ascii String.
From Verif Require Import Base FramesModel InvokeModel DispatchModel.
Import ListNotations.
Open Scope N_scope.

(** The bytes of a text in ASCII. *)
Definition text (s : string) : bytes := map N_of_ascii (list_ascii_of_string s).

(** Frame types of requests. *)
Definition request_type (k : ikind) : N := match k with RR => 4 | FNF => 5 | RS => 6 | RC => 7 end.
(** Big-endian number in the first four bytes. *)
Definition number4 (l : bytes) : N :=
  match l with a :: b :: c :: d :: _ => a * 16777216 + b * 65536 + c * 256 + d | _ => 0 end.

Section Spec.
Context {H S : Type}.
Implicit Types (tbl : ikind -> list (option H)) (l : list (act H S)).

Definition few tbl : Prop := forall k, len (tbl k) < 2^32.

(** What can be seen of the actions: frames sent, handlers run, streams called, streams registered and removed. *)
Definition sent l : list frame := flat_map (fun a => match a with ASend f => [f] | _ => [] end) l.
Definition runs l : list (ikind * H * N * bytes * bytes * N) :=
  flat_map (fun a => match a with ARun k h sid d m _ n => [(k, h, sid, d, m, n)] | _ => [] end) l.
Definition stream_calls l : list (S * scall) := flat_map (fun a => match a with ACall s c => [(s, c)] | _ => [] end) l.
Definition removed l : list N := flat_map (fun a => match a with ARemove sid => [sid] | _ => [] end) l.
Definition registered l : list N := flat_map (fun a => match a with ARegister sid => [sid] | _ => [] end) l.

(** The handler a request names: eight bytes of metadata at least, the first four being its number. *)
Definition names tbl (k : ikind) (md : bytes) (h : H) : Prop :=
  8 <= len md /\ nth_error (tbl k) (N.to_nat (number4 md)) = Some (Some h).

(** The metadata a handler is given: peers and guests cut eight bytes off for single-answer requests, hosts never. *)
Definition handler_metadata (w : site) (k : ikind) (md : bytes) : bytes :=
  match w, k with
  | Host, _ => md
  | _, RR | _, FNF => skipn 8 md
  | _, _ => md
  end.

(** The named handler is run exactly once, or exactly one error is sent to the stream of the request. *)
Definition answered tbl (w : site) (k : ikind) (r : request_frame) l : Prop :=
  stream_calls l = [] /\ removed l = [] /\
  ((exists h, names tbl k (rf_metadata r) h /\ sent l = [] /\
      runs l = [(k, h, rf_stream_id r, rf_data r, handler_metadata w k (rf_metadata r), rf_initial_n r)])
   \/
   ((forall h, ~ names tbl k (rf_metadata r) h) /\ runs l = [] /\ registered l = [] /\
    sent l = [FError (rf_stream_id r) 0 (if len (rf_metadata r) <? 8 then invalid_metadata else not_found)])).

(** What a frame asks of the stream it names, and whether it ends it. *)
Definition asks (f : frame) : list scall :=
  match f with
  | FRequestN _ n => [DoRequest n]
  | FCancel _ => [OnComplete]
  | FError _ _ msg => [OnError msg; OnComplete]
  | FPayload p => (if pf_next p then [OnNext (pf_data p) (pf_metadata p)] else []) ++ (if pf_complete p then [OnComplete] else [])
  | FRequest _ => []
  end.
Definition ends_stream (f : frame) : bool :=
  match f with FCancel _ => true | FError _ _ _ => true | FPayload p => pf_complete p | _ => false end.
Definition is_request (f : frame) : bool := match f with FRequest _ => true | _ => false end.

(** The frames a stream cannot take. *)
Definition crashes (s : skind) (f : frame) : Prop :=
  match s, f with
  | SMono, FRequestN _ _ => True
  | SFlux i, FRequestN _ _ => i = false
  | SResp sub _, FRequestN _ _ => sub = false
  | SResp _ sink, FCancel _ => sink = false
  | SResp _ sink, FError _ _ _ => sink = false
  | SResp _ sink, FPayload p => sink = false /\ (pf_next p = true \/ pf_complete p = true)
  | _, _ => False
  end.
End Spec.

(** The stream whose context each handler is run in. *)
Definition parents {H S} (l : list (act H S)) : list (option S) := flat_map (fun a => match a with ARun _ _ _ _ _ p _ => [p] | _ => [] end) l.
(** A host runs a handler in the context of the registered stream whose number is in the second four bytes, unless that is 0. *)
Definition parent_of {S} (get : N -> option S) (w : site) (md : bytes) : option S :=
  match w with
  | Host => if number4 (skipn 4 md) =? 0 then None else get (number4 (skipn 4 md))
  | _ => None
  end.

(** Type and stream id in the header of a frame. *)
Definition wire_type (bs : bytes) : N := nth 4 bs 0 / 4.
Definition wire_sid (bs : bytes) : N := number4 bs mod 2^31.
