(** What reading and writing frames on a connection should mean. *)
From Coq Require Import List NArith Bool.
From Verif Require Import Base FramesModel FramesSpec BatchSpec TcpModel.
Import ListNotations.
Open Scope N_scope.

(** A body behind its 24-bit length; bytes that hold no complete one. *)
Definition delimited (body : bytes) : bytes := bytes3 (len body) ++ body.
Definition incomplete (bs : bytes) : Prop := forall body rest, len body < 2^24 -> bs <> delimited body ++ rest.

(** How the end of the connection shows. *)
Definition visible (e : tcp_error) : option tcp_error := match e with EOF | ConnErr true => None | e => Some e end.

(** The frames in a sequence of bytes that ends with [fin], and how reading them ends. *)
Inductive reads (fin : tcp_error) : bytes -> list frame -> ending -> Prop :=
| Reads_end : forall bs, incomplete bs -> reads fin bs [] (Returns (visible fin))
| Reads_zero : forall rest, reads fin (delimited [] ++ rest) [] (Returns (Some InvalidFrameLength))
| Reads_short : forall body rest, 1 <= len body < 6 -> reads fin (delimited body ++ rest) [] (Returns (Some IncompleteHeader))
| Reads_unknown : forall body rest, 6 <= len body < 2^24 -> frame_parse body = Ret None -> reads fin (delimited body ++ rest) [] (Returns (Some UnknownFrame))
| Reads_malformed : forall body rest, 6 <= len body < 2^24 -> frame_parse body = Panic -> reads fin (delimited body ++ rest) [] Panics
| Reads_frame : forall body rest f fs e, 6 <= len body < 2^24 -> frame_parse body = Ret (Some f) -> reads fin rest fs e -> reads fin (delimited body ++ rest) (f :: fs) e.

(** Never more than a hundred empty pieces in a row. *)
Definition no_stall (chunks : list bytes) : Prop := forall pre run post, chunks = pre ++ repeat [] run ++ post -> (run <= 100)%nat.

(** Reading a connection to its end gives these frames and this ending. *)
Definition reads_all (r : reader) (fs : list frame) (e : ending) : Prop :=
  exists enough, forall fuel, (enough <= fuel)%nat -> start_loop fuel new_scanner r = Some (fs, e).

Definition prefix {A} (a b : list A) : Prop := exists c, b = a ++ c.

(** Sending [fs] one after the other over a connection that takes [limit] bytes (all, if there is no limit): what arrives, and which sends
    report success. *)
Definition within (limit : option N) (n : N) : Prop := match limit with None => True | Some b => n <= b end.
Definition cut (limit : option N) (bs : bytes) : bytes := match limit with None => bs | Some b => firstn (N.to_nat b) bs end.
