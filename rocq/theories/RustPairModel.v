(** Model of two WasmSockets of the Rust implementation joined to each other, as rust/crates/wasmrs/src/socket.rs:517-541 joins them: what one sends, the other processes,
    in order.  Code only; no proofs.
    Simplification: frames cross as they are (for their bytes see C79, for the buffers they cross in C82); everything else as in [RustSocketModel]. *)
From Coq Require Import List NArith Bool.
From Verif Require Import Base RustFramesModel RustSocketModel.
Import ListNotations.
Open Scope N_scope.

(** The two sockets, and how many frames each has processed of what the other sent. *)
Record pair := mkPair { p_a : sock; p_b : sock; p_da : nat; p_db : nat }.
Definition other (sd : sside) : sside := match sd with Guest => Host | Host => Guest end.
(** socket.rs:518-526. *)
Definition new_pair (sd : sside) : pair := mkPair (new_sock sd) (new_sock (other sd)) 0 0.

Inductive pmove :=
| PA (m : kmove)     (* something moves at the first *)
| PB (m : kmove)     (* or at the second *)
| PToA               (* the first processes a frame of the second *)
| PToB.
Definition not_frame (m : kmove) : bool := match m with KFrame _ => false | _ => true end.
(** socket.rs:528-539: the two tasks between them. *)
Definition p_move (p : pair) (m : pmove) : option pair :=
  match m with
  | PA m => if not_frame m then match k_move (p_a p) m with Some a => Some (mkPair a (p_b p) (p_da p) (p_db p)) | None => None end else None
  | PB m => if not_frame m then match k_move (p_b p) m with Some b => Some (mkPair (p_a p) b (p_da p) (p_db p)) | None => None end else None
  | PToA =>
    match nth_error (k_out (p_b p)) (p_da p) with
    | Some (_, f) => match k_move (p_a p) (KFrame f) with Some a => Some (mkPair a (p_b p) (S (p_da p)) (p_db p)) | None => None end
    | None => None
    end
  | PToB =>
    match nth_error (k_out (p_a p)) (p_db p) with
    | Some (_, f) => match k_move (p_b p) (KFrame f) with Some b => Some (mkPair (p_a p) b (p_da p) (S (p_db p))) | None => None end
    | None => None
    end
  end.
Fixpoint p_moves (p : pair) (ms : list pmove) : option pair :=
  match ms with [] => Some p | m :: ms' => match p_move p m with Some p' => p_moves p' ms' | None => None end end.
