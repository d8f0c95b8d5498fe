(** Model of the three example modules of the mesh, go/transport/wasmrs/mesh/modules: concat and greeting, which answer by themselves, and customer,
    whose handler is a flow (go/rx/flow) of two calls of the others.  Code only; no proofs.

    The records, wrappers and clients (types.go, export.go, import.go of each module) are instances of [TransformModel] and [StubModel].  The guest has
    one thread: an answer arrives while none of its code runs, and what it sets off runs to the end.  The mono of a call is a processor that nobody but
    the flow subscribes (proxy/mono.go:54-60, mono/processor.go), so only its Notify callback and what Get returns matter.
    Left out: answers for streams that are not registered (they reach nothing, C49). *)
From Coq Require Import Ascii String List NArith Bool.
From Verif Require Import Base MsgpackModel MsgpackClient TransformModel OutcomeModel InvokeModel ProxyModel StubModel.
Import ListNotations.
Open Scope N_scope.

Definition str (s : string) : bytes := map N_of_ascii (list_ascii_of_string s).
Definition text_field (n : bytes) : bytes * fkind := (n, FScal KStr).
(** A record of strings by name; the zero record. *)
Definition strings_env (l : list (bytes * bytes)) : env := fold_right (fun f e => set_field e (fst f) (VScal (SStr (snd f)))) (fun _ => VScal (SStr [])) l.
Definition string_in (v : fval) : bytes := match v with VScal (SStr s) => s | _ => [] end.

(** concat/types.go, greeting/types.go, customer/types.go. *)
Definition strings_schema : schema := [text_field (str "left"); text_field (str "right")].
Definition greeting_schema : schema := [text_field (str "name")].
Definition customer_schema : schema := [text_field (str "firstName"); text_field (str "lastName")].
Definition strings (a b : bytes) : env := strings_env [(str "left", a); (str "right", b)].
Definition greeting (name : bytes) : env := strings_env [(str "name", name)].
Definition customer (first last : bytes) : env := strings_env [(str "firstName", first); (str "lastName", last)].

(** concat/cmd/main.go:16-18, greeting/cmd/main.go:16-18. *)
Definition concat_service : service :=
  mkService strings_schema (strings_env []) (fun _ args => match map string_in args with [a; b] => Just (VResult (SStr (a ++ str " " ++ b))) | _ => MError [] end).
Definition greeting_service : service :=
  mkService greeting_schema (strings_env []) (fun _ args => match map string_in args with [name] => Just (VResult (SStr (str "Hello, " ++ name))) | _ => MError [] end).

Section Customer.
Context (f64to32 : N -> N) (pt : bytes -> option gtime) (text : rerr -> bytes).
(** The numbers the imports returned, concat/import.go:22, greeting/import.go:22. *)
Context (op_concat op_greeting : N).

(** flow.go:12-21: how many steps are cut off, completed, len(awaitables); for each call made what its processor has been given; what has been sent;
    the calls on the flow's sink.  [z_stuck]: a panic, or a step that is run again and again. *)
Record flow_state := mkFlow { z_pos : nat; z_completed : nat; z_len : nat; z_calls : list (list (pay + bytes)); z_sent : list pay; z_out : list (sink_call value bytes); z_stuck : bool }.
Definition stuck (s : flow_state) : flow_state := mkFlow (z_pos s) (z_completed s) (z_len s) (z_calls s) (z_sent s) (z_out s) true.

(** Get of the mono of a call, mono.go:137-142 and 240-247, when its processor has been given [l]; the error is dropped, customer/cmd/main.go:32, 36.
    [None]: the panic of Get before completion. *)
Definition get_string (l : list (pay + bytes)) : option bytes :=
  match OutcomeModel.get zero_value (Map (Created (Some (map reply_call l)) []) (decode_value f64to32 pt text KStr)) with
  | Some (VResult (SStr s), None) => Some s
  | Some _ => Some []
  | None => None
  end.

(** A step that has made a call and awaits it, flow.go:107-114: Async sends the request (proxy/mono.go:54-60, 66-72), Notify keeps the callback.  If the
    arguments cannot be encoded the awaited mono is mono.Error, whose Notify calls back at once (mono.go:61-63), before the step is cut off. *)
Definition await_call (s : flow_state) (r : outcome rerr pay) : flow_state :=
  match r with
  | Ret p => mkFlow (S (z_pos s)) 0 1 (z_calls s ++ [[]]) (z_sent s ++ [p]) (z_out s) (z_stuck s)
  | _ => stuck s
  end.

(** flow.go:87-115 with the steps of customer/cmd/main.go:28-39. *)
Definition flow_next (first last : bytes) (s : flow_state) : flow_state :=
  match z_pos s with
  | O => await_call s (stub_call strings_schema op_concat (strings first last))
  | S O => match get_string (nth 0 (z_calls s) []) with
           | Some name => await_call s (stub_call greeting_schema op_greeting (greeting name))
           | None => stuck s
           end
  | S (S O) => match get_string (nth 1 (z_calls s) []) with
               | Some message => mkFlow 3 0 0 (z_calls s) (z_sent s) (z_out s ++ [KSuccess (VResult (SStr message))]) (z_stuck s)
               | None => stuck s
               end
  | _ => s
  end.
(** flow.go:117-122. *)
Definition flow_check (first last : bytes) (s : flow_state) : flow_state :=
  let s' := mkFlow (z_pos s) (S (z_completed s)) (z_len s) (z_calls s) (z_sent s) (z_out s) (z_stuck s) in
  if Nat.leb (z_len s) (S (z_completed s)) then flow_next first last s' else s'.

(** The processor of the i-th call is given an answer: the first completes it and runs the Notify callback, mono.go:157-189. *)
Definition give (i : nat) (o : pay + bytes) (l : list (list (pay + bytes))) : list (list (pay + bytes)) := firstn i l ++ (nth i l [] ++ [o]) :: skipn (S i) l.
Definition flow_answer (first last : bytes) (s : flow_state) (a : nat * (pay + bytes)) : flow_state :=
  let '(i, o) := a in
  if z_stuck s then s
  else match nth_error (z_calls s) i with
       | None => s
       | Some l => let s' := mkFlow (z_pos s) (z_completed s) (z_len s) (give i o (z_calls s)) (z_sent s) (z_out s) (z_stuck s) in
                   match l with [] => flow_check first last s' | _ => s' end
       end.

(** The handler: customer/cmd/main.go:21-40 and flow.go:73-78, after the answers [acts]. *)
Definition new_customer (first last : bytes) (acts : list (nat * (pay + bytes))) : flow_state :=
  fold_left (flow_answer first last) acts (flow_next first last (mkFlow 0 0 0 [] [] [] false)).

(** customer/export.go:19-30: what has been sent to the other modules, and what has been answered. *)
Definition customer_request (data : bytes) : outcome rerr (bytes * bytes) :=
  do e <- codec_decode f64to32 pt customer_schema (S (length data)) (strings_env []) data ;
  Ret (string_in (e (str "firstName")), string_in (e (str "lastName"))).
Definition customer_sends (data : bytes) (acts : list (nat * (pay + bytes))) : list pay :=
  match customer_request data with Ret (first, last) => z_sent (new_customer first last acts) | _ => [] end.
Definition customer_mono (data : bytes) (acts : list (nat * (pay + bytes))) : stub_mono :=
  match customer_request data with
  | Ret (first, last) => Map (Created None (z_out (new_customer first last acts))) (encode_value text)
  | Fail x => MError (text x)
  | Panic => MError []
  end.
Definition customer_answers (data : bytes) (acts : list (nat * (pay + bytes))) : list (pay + bytes) := subscribe zero_value (customer_mono data acts) answers.
End Customer.
