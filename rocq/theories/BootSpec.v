(** What an instance should know once NewInstance has returned. *)
From Coq Require Import List NArith Bool.
From Verif Require Import Base FramesSpec OperationsModel InvokeModel InvokeSpec BootModel.
Import ListNotations.
Open Scope N_scope.

(** The table says what the history of registrations says: each export under the number of its handler, each import under the number its caller got. *)
Definition tells {H} (t : list operation) (h : list (icall H)) : Prop :=
  forall k i ns op,
    (In (mkOp i (type_no k) 1 ns op) t <-> exists f, nth_error (exported k h) (N.to_nat i) = Some ((ns, op), f)) /\
    (In (mkOp i (type_no k) 2 ns op) t <-> In (ns, op) (imported k h) /\ index_of h k (ns, op) = i).

(** The calls a module makes of the host: all of those of its init function, then those of the other. *)
Definition calls_made (m : module) : list (hostcall * bytes) :=
  match x_init m with Some init => fst (init buffer_size buffer_size (1024 * 1024)) | None => [] end ++ match x_ops m with Some f => fst f | None => [] end.
(** The bytes of the last table announced, the buffers last announced. *)
Definition announced (cs : list (hostcall * bytes)) : option bytes :=
  fold_left (fun o c => match c with (HOps p n, mem) => Some (mem_read mem p n) | _ => o end) cs None.
(** The operations a table stands for: none if it was not announced or cannot be read. *)
Definition decoded (o : option bytes) : list operation := match o with Some bs => match FromBytes bs with Ret t => t | _ => [] end | None => [] end.
Definition buffers (cs : list (hostcall * bytes)) : N * N := fold_left (fun o c => match c with (HBuffers s r, _) => (s, r) | _ => o end) cs (0, 0).

(** A guest sending the frame [b]: three bytes of length and the frame at the start of its buffer. *)
Definition sending (ptr : N) (b : bytes) (c : hostcall * bytes) : Prop :=
  fst c = HSend (3 + len b) /\ exists before after, len before = ptr /\ snd c = before ++ bytes3 (len b) ++ b ++ after.
