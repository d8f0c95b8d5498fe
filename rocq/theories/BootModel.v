(** Model of how a host instance comes to know its guest: go/transport/wasmrs/host/instance.go NewInstance (64-102), setBuffers (154-157), opList (224-228), hostSend
    (230-244), host.go:88-127 (the functions guests can call), and of a guest made with this library, go/transport/wasmrs/guest/guest.go Init (46-55) and OperationList
    (63-89).  Code only; no proofs.

    A module is what it exports and what its exported functions do when NewInstance calls them: the calls of host functions they make, with the memory as it is then, and
    whether they return without an error.  Nothing else about a guest is assumed.  The context that leads host functions to their instance is that of the call.  Not
    modelled: compiling and instantiating the module (its start functions run before NewInstance), the two loops started at the end. *)
From Coq Require Import List NArith Bool.
From Verif Require Import Base OperationsModel InvokeModel FramesModel BatchModel.
Import ListNotations.
Open Scope N_scope.

(** host.go:88-100: __init_buffers, __op_list, __send. *)
Inductive hostcall := HBuffers (send_ptr recv_ptr : N) | HOps (op_ptr op_size : N) | HSend (recv_pos : N).
Definition fn : Type := list (hostcall * bytes) * bool.
Record module := mkModule { x_init : option (N -> N -> N -> fn); x_send : bool; x_ops : option fn }.

(** instance.go:24-52, the fields concerned; recvCh as the buffers in it, the oldest first. *)
Record instance := mkInstance { i_send_ptr : N; i_recv_ptr : N; i_ops : list operation; i_recv : list bytes }.

(** How a call ends: with a value, an error, a panic, or never. *)
Inductive ending (A : Type) := Done (a : A) | Error | Crash | Blocked.
Arguments Done {A} _. Arguments Error {A}. Arguments Crash {A}. Arguments Blocked {A}.

(** api.Memory's Read: nil if the range is not within the memory. *)
Definition mem_read (mem : bytes) (ptr size : N) : bytes := if ptr + size <=? len mem then firstn (N.to_nat size) (skipn (N.to_nat ptr) mem) else [].

(** instance.go:74: the capacity of recvCh. *)
Definition room : N := 100.

Definition host_call (i : instance) (c : hostcall) (mem : bytes) : ending instance :=
  match c with
  (* instance.go:154-157 *)
  | HBuffers s r => Done (mkInstance s r (i_ops i) (i_recv i))
  (* instance.go:224-228: FromBytes returns nil with an error *)
  | HOps p n => match FromBytes (mem_read mem p n) with
                | Ret t => Done (mkInstance (i_send_ptr i) (i_recv_ptr i) t (i_recv i))
                | Fail _ => Done (mkInstance (i_send_ptr i) (i_recv_ptr i) [] (i_recv i))
                | Panic => Crash
                end
  (* instance.go:230-244: nobody takes anything from the channel yet *)
  | HSend n => match hostSend (mem_read mem (i_recv_ptr i) n) with
               | Ret bufs => if len (i_recv i ++ bufs) <=? room then Done (mkInstance (i_send_ptr i) (i_recv_ptr i) (i_ops i) (i_recv i ++ bufs)) else Blocked
               | _ => Crash
               end
  end.
Fixpoint host_calls (i : instance) (cs : list (hostcall * bytes)) : ending instance :=
  match cs with
  | [] => Done i
  | (c, mem) :: cs' => match host_call i c mem with Done i' => host_calls i' cs' | e => e end
  end.
(** api.Function's Call: a panic of a host function is returned as an error. *)
Definition wasm_call (i : instance) (f : fn) : ending instance :=
  match host_calls i (fst f) with
  | Done i' => if snd f then Done i' else Error
  | Error | Crash => Error
  | Blocked => Blocked
  end.

(** instance.go:64-102 NewInstance: 82 and 95 make the zero values, 85 calls with these sizes. *)
Definition buffer_size : N := 16 * 1024.
Definition NewInstance (m : module) : ending instance :=
  match x_init m with
  | None => Error
  | Some init =>
    if negb (x_send m) then Error else
    match wasm_call (mkInstance 0 0 [] []) (init buffer_size buffer_size (1024 * 1024)) with
    | Done i =>
      (* instance.go:91-95: the function is called without a test for nil *)
      match x_ops m with
      | None => Crash
      | Some f => wasm_call i f
      end
    | e => e
    end
  end.

(** ** A guest made with the library *)
(** Where the allocator puts the two buffers and the table, and the memory when Init and OperationList call the host. *)
Record placing := mkPlacing { at_guest : N; at_host : N; at_ops : N; mem_init : bytes; mem_ops : bytes }.
(** guest.go:46-55: the pointers of the two buffers. *)
Definition guest_init (p : placing) (guestBufferSize hostBufferSize hostMaxFrameSize : N) : fn := ([(HBuffers (at_guest p) (at_host p), mem_init p)], true).
(** guest.go:63-89; a guest that panics traps. *)
Definition guest_ops {H} (t : tables H) (p : placing) : fn :=
  match OperationList t with
  | Ret payload => ([(HOps (at_ops p) (u32 (len payload)), overlay (mem_ops p) (firstn (N.to_nat (at_ops p)) (mem_ops p) ++ payload))], true)
  | _ => ([], false)
  end.
Definition library_module {H} (t : tables H) (p : placing) : module := mkModule (Some (guest_init p)) true (Some (guest_ops t p)).
