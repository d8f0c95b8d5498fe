(** Model of request/response calls from one module to another through the mesh: go/transport/wasmrs/mesh/mesh.go:263-269 and
    go/transport/wasmrs/host/instance.go:427-465, on top of the calls between a host instance and its guest ([CallModel]) and the linking of
    [MeshModel].  Code only; no proofs.

    Every loaded module is a pair of peers, its host instance and its guest.  The handlers of a host instance are the destinations it has been linked
    to, those of a guest are its own.  Guests call and answer as they like; so does the application that owns the mesh (mesh.go:62-75, which is a call by
    the host instance the export belongs to).
    Simplifications: those of [CallModel]; that the goroutine of handleRequestResponse calls the handler and subscribes what it returns is one move, while
    the callback that sends the answer on is a move of its own, which may come any time after the answer; all modules have been loaded before; the bytes of
    a request are values, which the index is put into (their being slices of a pooled buffer is the subject of Recycle). *)
From Coq Require Import List NArith Bool.
From Verif Require Import Base FramesModel OperationsModel InvokeModel LookupModel StreamIdModel MonoModel ProxyModel DispatchModel CallModel MeshModel.
Import ListNotations.
Open Scope N_scope.

Section Relay.
Context {G : Type}.
Context (m : mesh).                                    (* as linked *)
Context (exported : nat -> ikind -> list (option G)).  (* the guests' handlers *)

(** The guest has the odd stream ids. *)
Definition relay_site (s : side) : site := match s with Client => Guest | Server => Host end.
Definition relay_tbl (i : nat) (s : side) (k : ikind) : list (option (destination + G)) :=
  match s with Server => map (option_map inl) (m_tabs m i k) | Client => map (option_map inr) (exported i k) end.

(** A call that goes on: the run of a destination in an instance, and the call it has made by another. *)
Record link := mkLink { l_from : nat; l_run : nat; l_to : nat; l_call : nat }.
Record relay := mkRelay { y_nets : list (net (destination + G)); y_links : list link }.
Definition relay_create (n : nat) : relay := mkRelay (repeat net_create n) [].

Fixpoint put_nth {A} (l : list A) (n : nat) (x : A) : list A :=
  match l, n with [], _ => [] | _ :: l', O => x :: l' | a :: l', S n' => a :: put_nth l' n' x end.

Inductive rmove :=
| RNet (i : nat) (mv : move)       (* anything in instance i and its guest that does not concern a destination *)
| RForward (i j : nat)             (* the j-th goroutine of host instance i, which is to run a destination, goes on *)
| RBack (n : nat).                 (* the callback of the n-th link *)

(** Runs of destinations begin with [RForward] and end with [RBack]. *)
Definition own_move (st : net (destination + G)) (mv : move) : bool :=
  match mv with
  | MTask Server j => match nth_error (p_tasks (n_peer st Server)) j with Some (ARun _ _ _ _ _ _ _) => false | _ => true end
  | MConclude Server _ _ => false
  | _ => true
  end.
Definition net_move (r : relay) (i : nat) (mv : move) : option relay :=
  match nth_error (y_nets r) i with
  | Some st => match do_move relay_site (relay_tbl i) st mv with Some st' => Some (mkRelay (put_nth (y_nets r) i st') (y_links r)) | None => None end
  | None => None
  end.
Definition do_relay (r : relay) (mv : rmove) : option relay :=
  match mv with
  | RNet i mv => match nth_error (y_nets r) i with Some st => if own_move st mv then net_move r i mv else None | None => None end
  (* instance.go:447-448, mesh.go:263-269, caller.go:31-40, proxy/mono.go:66-72 *)
  | RForward i j =>
    match nth_error (y_nets r) i with
    | Some st =>
      match nth_error (p_tasks (n_peer st Server)) j with
      | Some (ARun _ (inl d) _ data md _ _) =>
        match redirect d (Some md) with
        | Ret (Some md') =>
          match net_move r i (MTask Server j) with
          | Some r1 =>
            match nth_error (y_nets r1) (d_inst d) with
            | Some sd =>
              let k := length (p_calls (n_peer sd Server)) in
              match net_move r1 (d_inst d) (MCall Server data md') with
              | Some r2 =>
                match net_move r2 (d_inst d) (MSubscribe Server k) with
                | Some r3 => Some (mkRelay (y_nets r3) (y_links r ++ [mkLink i (length (p_runs (n_peer st Server))) (d_inst d) k]))
                | None => None
                end
              | None => None
              end
            | None => None
            end
          | None => None
          end
        | _ => None
        end
      | _ => None
      end
    | None => None
    end
  (* instance.go:449-463 *)
  | RBack n =>
    match nth_error (y_links r) n with
    | Some l =>
      match nth_error (y_nets r) (l_to l) with
      | Some sd =>
        match nth_error (p_calls (n_peer sd Server)) (l_call l) with
        | Some c => match flat_map snd (p_subs (c_proc c)) with o :: _ => net_move r (l_from l) (MConclude Server (l_run l) o) | [] => None end
        | None => None
        end
      | None => None
      end
    | None => None
    end
  end.
Fixpoint do_relays (r : relay) (ms : list rmove) : option relay :=
  match ms with [] => Some r | mv :: ms' => match do_relay r mv with Some r' => do_relays r' ms' | None => None end end.
End Relay.
Arguments relay : clear implicits.
