(** Model of the three example components and of the handlers generated for them:
    go/transport/wasmrs/example/wordfrequency/{generated,wordfrequency}.go, example/concat/{generated,concat}.go,
    example/greeter/{generated,greeter}.go.  Code only; no proofs.

    - Guest build (flux_webassembly.go): subscriptions and requests run synchronously, so a handler is a function from the
      calls on its input to what its subscriber sees.
    - The processors inside a handler are subscribed before the first input arrives (wordfrequency/generated.go:53, wordfrequency.go:14),
      so a call on one reaches its subscriber, which ignores it once closed (C28, C26).
    - A subscriber of the handler's flux is represented by its closed flag and the calls it received; its demand is C58/C66.
    - [counts] is asked for rx.RequestMax items once (flux.go:191); the memory of a guest holds fewer entries.
    - strings.ToLower and the order that map iteration and sort.Sort (not stable) produce are parameters. *)
From Coq Require Import Ascii String List NArith Bool.
From Verif Require Import Base OperationsModel MsgpackModel MsgpackClient TransformModel PortModel.
Import ListNotations.
Open Scope N_scope.

Definition name (s : string) : bytes := map N_of_ascii (list_ascii_of_string s).

(** What the subscriber of the returned flux sees. *)
Inductive oev := ONext (data md : bytes) | OComplete | OError (e : rerr).
(** rx/flux/flux.go:127-162 the sink of flux.Create. *)
Record sink := mkSink { k_closed : bool; k_seen : list oev }.
Definition sink_next (data md : bytes) (k : sink) : sink := if k_closed k then k else mkSink false (k_seen k ++ [ONext data md]).
Definition sink_complete (k : sink) : sink := if k_closed k then k else mkSink true (k_seen k ++ [OComplete]).
Definition sink_error (e : rerr) (k : sink) : sink := if k_closed k then k else mkSink true (k_seen k ++ [OError e]).
(** flux.go:202-210 Cancel by the subscriber. *)
Definition sink_cancel (k : sink) : sink := mkSink true (k_seen k).

(** What happens to a handler: its input flux emits, completes or fails; its subscriber cancels. *)
Inductive iev := INext (data md : bytes) | IComplete | IError | ICancel.

Section Components.
Variable f64to32 : N -> N.
Variable pt : bytes -> option gtime.

(** transform.go:17-30 transform.String.Decode. *)
Definition decode_string (data : bytes) : outcome rerr bytes :=
  match transform_decode f64to32 pt KStr data with Ret (SStr s) => Ret s | Ret _ => Panic | Fail e => Fail e | Panic => Panic end.

(** ** wordfrequency *)
Variable lower : bytes -> bytes.
Variable order : list (bytes * N) -> list (bytes * N).

(** wordfrequency.go:59-71 ignoredWords. *)
Definition ignored_words : list bytes :=
  map name ["i"; "the"; "and"; "to"; "of"; "a"; "my"; "in"; "you"; "is"; "that"]%string.
Definition ignored (w : bytes) : bool := existsb (bytes_equal w) ignored_words.

(** counts[word] = counts[word] + 1 (uint64). *)
Fixpoint count_word (m : list (bytes * N)) (w : bytes) : list (bytes * N) :=
  match m with
  | [] => [(w, 1)]
  | (v, c) :: m' => if bytes_equal w v then (v, (c + 1) mod 2^64) :: m' else (v, c) :: count_word m' w
  end.
(** wordfrequency.go:15-21. *)
Definition on_word (m : list (bytes * N)) (w : bytes) : list (bytes * N) :=
  let w := lower w in if ignored w then m else count_word m w.
(** wordfrequency.go:11-44 Process, when Words emits [words] and completes: what Counts emits (before it completes). *)
Definition process (words : list bytes) : list (bytes * N) := order (fold_left on_word words []).

(** wordfrequency/generated.go:121-166 WordCount. *)
Definition count_schema : schema := [(name "word", FScal KStr); (name "count", FScal KU64)].
Definition count_record (wc : bytes * N) : env := fun n => if bytes_equal n (name "word") then VScal (SStr (fst wc)) else VScal (SU64 (snd wc)).

(** portIO.Encode() for the name of an output; generated.go:60-64, 68-72. *)
Definition port_out (port : bytes) (next complete : bool) : outcome rerr bytes :=
  match PortEncode (mkPort port [] complete next) with Ret b => Ret b | Fail _ => Panic | Panic => Panic end.

(** generated.go:54-66 OnNext of counts. *)
Definition on_count (k : sink) (wc : bytes * N) : outcome rerr sink :=
  match codec_encode count_schema (count_record wc) with
  | Fail e => Ret (sink_error e k)
  | Panic => Panic
  | Ret d => do md <- port_out (name "counts") true false ; Ret (sink_next d md k)
  end.
Fixpoint on_counts (k : sink) (l : list (bytes * N)) : outcome rerr sink :=
  match l with [] => Ret k | wc :: l' => do k' <- on_count k wc ; on_counts k' l' end.

(** The input's subscriber is closed, the words' subscriber is closed, the map, the sink. *)
Record freq := mkFreq { w_in : bool; w_words : bool; w_map : list (bytes * N); w_sink : sink }.
Definition freq_start : freq := mkFreq false false [] (mkSink false []).

(** words.Complete(): wordfrequency.go:22-29, then generated.go:67-74 OnComplete and 44-49 final. *)
Definition words_complete (s : freq) : outcome rerr freq :=
  if w_words s then Ret s
  else do k <- on_counts (w_sink s) (order (w_map s)) ;
       do md <- port_out (name "counts") false true ;
       Ret (mkFreq (w_in s) true (w_map s) (sink_complete (sink_next [] md k))).
(** words.Next(next). *)
Definition words_next (s : freq) (w : bytes) : freq :=
  if w_words s then s else mkFreq (w_in s) (w_words s) (on_word (w_map s) w) (w_sink s).

Definition freq_with (s : freq) (k : sink) : freq := mkFreq (w_in s) (w_words s) (w_map s) k.
(** generated.go:91-117: the subscriber of the input.  It has no OnError. *)
Definition freq_step (s : freq) (e : iev) : outcome rerr freq :=
  match e with
  | ICancel => Ret (freq_with s (sink_cancel (w_sink s)))
  | INext data md =>
    if w_in s then Ret s else
    match PortDecode md with
    | Fail _ | Panic => Panic
    | Ret port =>
      if bytes_equal (p_port port) (name "words") then
        match (if p_next port then
                 match decode_string data with
                 | Ret w => Ret (inl (words_next s w))
                 | Fail x => Ret (inr (freq_with s (sink_error x (w_sink s))))
                 | Panic => Panic
                 end
               else Ret (inl s)) with
        | Ret (inl s') => if p_complete port then words_complete s' else Ret s'
        | Ret (inr s') => Ret s'
        | Fail x => Fail x
        | Panic => Panic
        end
      else Ret s
    end
  | IComplete => if w_in s then Ret s else words_complete (mkFreq true (w_words s) (w_map s) (w_sink s))
  | IError => Ret (mkFreq true (w_words s) (w_map s) (w_sink s))
  end.
Fixpoint freq_steps (s : freq) (l : list iev) : outcome rerr freq :=
  match l with [] => Ret s | e :: l' => do s' <- freq_step s e ; freq_steps s' l' end.
(** What the subscriber of WordFrequency has seen after [l]. *)
Definition word_frequency (l : list iev) : outcome rerr (list oev) := do s <- freq_steps freq_start l ; Ret (k_seen (w_sink s)).

(** ** Components of one value: concat, greeter *)
Section One.
Variable A : Type.
Variable in_port out_port : bytes.
Variable decode : bytes -> outcome rerr A.
Variable compute : A -> bytes.

(** The input's subscriber is closed, the value's (and the result's) subscriber is closed, the sink. *)
Record one := mkOne { n_in : bool; n_done : bool; n_sink : sink }.
Definition one_start : one := mkOne false false (mkSink false []).

(** strings.Success(s): concat.go:10-17 / greeter.go:10-14, then concat/generated.go:49-65 / greeter/generated.go:48-64 and final. *)
Definition value_success (s : one) (a : A) : outcome rerr one :=
  if n_done s then Ret s
  else match transform_encode (SStr (compute a)) with
       | Fail e => Ret (mkOne (n_in s) true (sink_complete (sink_error e (n_sink s))))
       | Panic => Panic
       | Ret d => do md <- port_out out_port true true ;
                  Ret (mkOne (n_in s) true (sink_complete (sink_next d md (n_sink s))))
       end.
(** concat/generated.go:77-99, greeter/generated.go:76-97: the subscriber of the input.  It has no OnComplete and no OnError. *)
Definition one_step (s : one) (e : iev) : outcome rerr one :=
  match e with
  | ICancel => Ret (mkOne (n_in s) (n_done s) (sink_cancel (n_sink s)))
  | INext data md =>
    if n_in s then Ret s else
    match PortDecode md with
    | Fail _ | Panic => Panic
    | Ret port =>
      if bytes_equal (p_port port) in_port && p_next port then
        match decode data with
        | Fail x => Ret (mkOne (n_in s) (n_done s) (sink_error x (n_sink s)))
        | Panic => Panic
        | Ret a => value_success s a
        end
      else Ret s
    end
  | IComplete | IError => Ret (mkOne true (n_done s) (n_sink s))
  end.
Fixpoint one_steps (s : one) (l : list iev) : outcome rerr one :=
  match l with [] => Ret s | e :: l' => do s' <- one_step s e ; one_steps s' l' end.
Definition one_value (l : list iev) : outcome rerr (list oev) := do s <- one_steps one_start l ; Ret (k_seen (n_sink s)).
End One.

(** greeter/generated.go:35-99, greeter/greeter.go. *)
Definition greeter : list iev -> outcome rerr (list oev) :=
  one_value bytes (name "name") (name "message") decode_string (fun s => name "Hello, " ++ s).

(** concat/generated.go:103-148 Strings; [fuel] for Skip suffices (C20). *)
Definition strings_schema : schema := [(name "left", FScal KStr); (name "right", FScal KStr)].
Definition decode_strings (data : bytes) : outcome rerr (bytes * bytes) :=
  match codec_decode f64to32 pt strings_schema (S (length data)) (fun _ => VScal (SStr [])) data with
  | Ret e => match e (name "left"), e (name "right") with VScal (SStr l), VScal (SStr r) => Ret (l, r) | _, _ => Panic end
  | Fail x => Fail x
  | Panic => Panic
  end.
(** concat/generated.go:36-101, concat/concat.go. *)
Definition concat_component : list iev -> outcome rerr (list oev) :=
  one_value (bytes * bytes) (name "strings") (name "value") decode_strings (fun p => fst p ++ name " " ++ snd p).
End Components.
