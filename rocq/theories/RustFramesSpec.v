(** What it means that the Rust and the Go implementation understand each other's frames. *)
From Coq Require Import List NArith Bool.
From Verif Require Import Base FramesModel FramesSpec CustomSpec RustFramesModel.
Import ListNotations.
Open Scope N_scope.

Definition type_number (t : rtype) : N :=
  match t with
  | TReserved => 0 | TSetup => 1 | TLease => 2 | TKeepalive => 3 | TRequestResponse => 4 | TRequestFnf => 5 | TRequestStream => 6 | TRequestChannel => 7
  | TRequestN => 8 | TCancel => 9 | TPayload => 10 | TErr => 11 | TMetadataPush => 12 | TResume => 13 | TResumeOk => 14 | TExt => 63
  end.

Definition go_request (r : rrequest) : frame :=
  FRequest (mkRequest (type_number (rq_type r)) (rq_sid r) (rq_metadata r) (rq_data r) (rq_follows r) (rq_complete r) (rq_initial_n r)).

(** A Rust frame with its fields in the records of the Go implementation. *)
Definition go_view (g : rframe) : frame :=
  match g with
  | RPayloadFrame p => FPayload (mkPayload (rp_sid p) (rp_metadata p) (rp_data p) (rp_follows p) (rp_complete p) (rp_next p))
  | RCancel sid => FCancel sid
  | RErrorFrame sid code data => FError sid code data
  | RRequestN sid n => FRequestN sid n
  | RRequestResponse r | RRequestFnF r | RRequestStream r | RRequestChannel r => go_request r
  end.

(** The variant of a request frame says the same as its type field. *)
Definition consistent (g : rframe) : Prop :=
  match g with
  | RRequestResponse r => rq_type r = TRequestResponse
  | RRequestFnF r => rq_type r = TRequestFnf
  | RRequestStream r => rq_type r = TRequestStream
  | RRequestChannel r => rq_type r = TRequestChannel
  | _ => True
  end.

(** What a frame says: the complete mark means something on channel requests only, the credit on stream and channel requests only. *)
Definition says (f : frame) : frame :=
  match f with
  | FRequest r => FRequest (mkRequest (rf_type r) (rf_stream_id r) (rf_metadata r) (rf_data r) (rf_follows r)
                    (if rf_type r =? 7 then rf_complete r else true) (if is_stream_or_channel (rf_type r) then rf_initial_n r else 1))
  | _ => f
  end.

(** The text of an error frame is UTF-8. *)
Definition readable_text (f : frame) : Prop := match f with FError _ _ data => utf8 data | _ => True end.
