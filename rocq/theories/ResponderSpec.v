(** What a responder owes the requester of a stream. *)
From Coq Require Import List NArith ZArith Bool.
From Verif Require Import Base FramesModel MonoModel FluxModel FluxSpec ProxyModel ResponderModel.
Import ListNotations.

Definition sent_frames (tr : list revent) : list frame := flat_map (fun e => match e with RSent f => [f] | _ => [] end) tr.
(** Payload and Error frames; the others ask for input. *)
Definition is_answer (f : frame) : bool := match f with FPayload _ | FramesModel.FError _ _ _ => true | _ => false end.
Definition answers (tr : list revent) : list frame := filter is_answer (sent_frames tr).
Definition asks_input (tr : list revent) : list frame := filter (fun f => negb (is_answer f)) (sent_frames tr).

(** A terminal frame: an error, or a payload that completes. *)
Definition terminal (f : frame) : bool := match f with FramesModel.FError _ _ _ => true | FPayload p => pf_complete p | _ => false end.
(** Payloads, then at most one terminal frame. *)
Fixpoint stream_ok (l : list frame) : bool :=
  match l with
  | [] => true
  | [_] => true
  | f :: l' => negb (terminal f) && stream_ok l'
  end.

(** The calls made on the handler's flux, and the frames owed for them. *)
Definition out_calls (tr : list revent) : list (fcall pay bytes) := flat_map (fun e => match e with ROV (VCall c) => [c] | _ => [] end) tr.
Definition owed (sid : N) (c : fcall pay bytes) : list frame :=
  match c with
  | FNext (data, metadata) => [FPayload (mkPayload sid metadata data false false true)]
  | FComplete => [FPayload (mkPayload sid [] [] false true false)]
  | FluxModel.FError e => [FramesModel.FError sid 0 e]
  | _ => []
  end.
Definition answer (sid : N) (l : list (fcall pay bytes)) : list frame := flat_map (owed sid) (upto l).

(** What the handler's subscriber asks of the requester of a channel. *)
Definition input_demand (sid : N) (tr : list revent) : list frame :=
  flat_map (fun e => match e with RIV (VReqSrc n) => [FRequestN sid (u32z n)] | RIV VCancelSrc => [FramesModel.FCancel sid] | _ => [] end) tr.

(** The frames for what the callbacks of [out] saw. *)
Definition frames_of (sid : N) (tr : list (fevent pay bytes)) : list frame :=
  flat_map (fun e => match frame_of sid e with Some f => [f] | None => [] end) tr.
Definition is_payload (f : frame) : bool := match f with FPayload p => pf_next p | _ => false end.
Definition payloads (l : list frame) : nat := length (filter is_payload l).
(** The credit granted by the calls of Request. *)
Definition granted {T E} (tr : list (fevent T E)) : Z :=
  fold_right Z.add 0%Z (flat_map (fun c => match c with FRequest n => [Z.max 0 n] | _ => [] end) (fcalls tr)).
