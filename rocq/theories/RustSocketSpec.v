(** What a WasmSocket is to do, from the history of what happened to it: written without the maps, counters and tasks of [RustSocketModel]. *)
From Coq Require Import List NArith Bool.
From Verif Require Import Base ProxyModel RustFramesModel RustSocketModel.
From Verif Require RustCallModel RustStreamModel.
Import ListNotations.
Open Scope N_scope.

(** ** What the receiving end of a handler gets *)

(** The frame ends the stream. *)
Definition final (h : hkind) (f : rframe) : bool :=
  match f with
  | RPayloadFrame p => match h with ReqRR => true | _ => rp_complete p end
  | RCancel _ | RErrorFrame _ _ _ => true
  | _ => false
  end.
(** What it tells a receiver that is there. *)
Definition tells (h : hkind) (f : rframe) : list news :=
  match f with
  | RPayloadFrame p => if rp_next p then [NItem (rp_data p, rp_metadata p)] else []
  | RErrorFrame _ code m => [NFail code (match m with [] => RustCallModel.no_data | _ => m end)]
  | RCancel _ => match h with ReqRR => [NFail RustCallModel.Canceled RustCallModel.request_cancelled] | _ => [] end
  | _ => []
  end.
(** The frames of stream [sid] until another handler is registered for it, each with whether the receiver of [k] was there. *)
Fixpoint mine (k : nat) (sid : N) (there : bool) (evs : list event) : list (rframe * bool) :=
  match evs with
  | [] => []
  | EOpen _ _ sid' :: r => if sid' =? sid then [] else mine k sid there r
  | EDrop k' :: r => mine k sid (there && negb (Nat.eqb k' k)) r
  | EChannel _ _ :: r => mine k sid there r
  | EFrame f :: r => if RustStreamModel.rframe_sid f =? sid then (f, there) :: mine k sid there r else mine k sid there r
  end.
Fixpoint heard (h : hkind) (l : list (rframe * bool)) : list news :=
  match l with
  | [] => []
  | (f, there) :: r => (if there then tells h f else []) ++ if final h f then [] else heard h r
  end.
Definition done (h : hkind) (l : list (rframe * bool)) : bool := existsb (fun x => final h (fst x)) l.
Definition displaced (sid : N) (evs : list event) : bool := existsb (fun e => match e with EOpen _ _ sid' => sid' =? sid | _ => false end) evs.
Definition dropped (k : nat) (evs : list event) : bool := existsb (fun e => match e with EDrop k' => Nat.eqb k' k | _ => false end) evs.
(** What is in it from the start: the payload of a channel's request. *)
Definition opens_with (before : list event) : list news :=
  match rev before with EFrame (RRequestChannel r) :: _ => [NItem (rq_data r, rq_metadata r)] | _ => [] end.
Definition openings (evs : list event) : nat := length (filter (fun e => match e with EOpen _ _ _ => true | _ => false end) evs).

(** Handler [k], of kind [h] for stream [sid], was registered where the history splits. *)
Definition opened (hist before after : list event) (k : nat) (h : hkind) (sid : N) : Prop :=
  hist = before ++ EOpen k h sid :: after /\ openings before = k.

(** ** What the tasks of requests say *)

(** The requests received, in order. *)
Definition request_in (e : event) : list (skind * N * pay) :=
  match e with
  | EFrame (RRequestFnF r) => [(VFnF, rq_sid r, (rq_data r, rq_metadata r))]
  | EFrame (RRequestResponse r) => [(VRR, rq_sid r, (rq_data r, rq_metadata r))]
  | EFrame (RRequestStream r) => [(VStream, rq_sid r, (rq_data r, rq_metadata r))]
  | EFrame (RRequestChannel r) => [(VChannel, rq_sid r, (rq_data r, rq_metadata r))]
  | _ => []
  end.
Definition received (hist : list event) : list (skind * N * pay) := flat_map request_in hist.

(** The signals before the first [SComplete]. *)
Fixpoint until_complete (l : list signal) : list signal :=
  match l with [] => [] | SComplete :: _ => [] | x :: r => x :: until_complete r end.
Definition completed (l : list signal) : bool := existsb (fun x => match x with SComplete => true | _ => false end) l.

Definition item_frame (sid : N) (x : signal) : rframe :=
  match x with
  | SOk (d, m) => RPayloadFrame (mkRPayload sid m d false false true)
  | SErr e => RErrorFrame sid 513 e
  | SComplete => RPayloadFrame (mkRPayload sid [] [] false true false)
  end.
Definition end_frame (sid : N) : rframe := RPayloadFrame (mkRPayload sid [] [] false true false).
Definition answer_frame (sid : N) (x : signal) : list rframe :=
  match x with
  | SOk (d, m) => [RPayloadFrame (mkRPayload sid m d false true true)]
  | SErr e => [RErrorFrame sid 513 e]
  | SComplete => []
  end.

(** All that is to be said for what the RSocket implementation gave so far. *)
Definition owed (v : skind) (sid : N) (fed : list signal) (live : bool) : list rframe :=
  let stream := map (item_frame sid) (until_complete fed) ++ if completed fed || negb live then [end_frame sid] else [] in
  match v with
  | VRR => flat_map (answer_frame sid) fed
  | VFnF => flat_map (fun x => match x with SErr e => [RErrorFrame sid 513 e] | _ => [] end) fed
  | VStream => stream
  | VChannel => RRequestN sid 0x7fffffff :: stream
  end.

(** ** What the task of a channel says *)

(** The frames for the input: the first item is the request. *)
Fixpoint channel_frames (sid : N) (first : bool) (l : list signal) : list rframe :=
  match l with
  | [] => []
  | SOk (d, m) :: r => (if first then RRequestChannel (mkRRequest TRequestChannel sid m d false false 0x7fffffff) else RPayloadFrame (mkRPayload sid m d false false true)) :: channel_frames sid false r
  | SErr _ :: r => RErrorFrame sid 513 channel_failed :: channel_frames sid first r
  | SComplete :: r => end_frame sid :: channel_frames sid first r
  end.
Definition channel_owed (sid : N) (fed : list signal) (live : bool) : list rframe :=
  channel_frames sid true (until_complete fed) ++ if completed fed || negb live then [end_frame sid] else [].

(** The credit given for a stream. *)
Definition grant_in (sid : N) (e : event) : list N :=
  match e with EFrame (RRequestN sid' n) => if (sid' =? sid) && negb (n =? 0) then [n] else [] | _ => [] end.
Definition granted (sid : N) (evs : list event) : list N := flat_map (grant_in sid) evs.
Definition total (l : list N) : N := fold_right N.add 0 l.

(** ** Who said what *)
Definition author_eqb (a b : author) : bool :=
  match a, b with
  | ByApp, ByApp | ByFrame, ByFrame => true
  | ByCaller i, ByCaller j | ByServe i, ByServe j => Nat.eqb i j
  | _, _ => false
  end.
Definition said (a : author) (s : sock) : list rframe := map snd (filter (fun x => author_eqb (fst x) a) (k_out s)).
Definition prefix {A} (a b : list A) : Prop := exists c, b = a ++ c.

(** ** The calls of the application *)
Definition first_id (s : sside) : N := match s with Guest => 2 | Host => 1 end.
(** The requests sent at once: the n-th call has the id first + 2n. *)
Fixpoint requests (id : N) (ms : list kmove) : list rframe :=
  match ms with
  | [] => []
  | KCall c (d, m) :: r =>
    match c with
    | CFnF => RRequestFnF (mkRRequest TRequestFnf id m d false false 0)
    | CRR => RRequestResponse (mkRRequest TRequestResponse id m d false false 0)
    | CStream => RRequestStream (mkRRequest TRequestStream id m d false false 0)
    end :: requests ((id + 2) mod 2 ^ 32) r
  | KChannel :: r => requests ((id + 2) mod 2 ^ 32) r
  | _ :: r => requests id r
  end.
Definition is_call (m : kmove) : bool := match m with KCall _ _ | KChannel => true | _ => false end.
Definition calls (ms : list kmove) : N := len (filter is_call ms).

(** ** What the moves are to have recorded *)

(** The history: [id], [k] and [i] are the id of the next call, and how many handlers and channels there are. *)
Fixpoint events (id : N) (k i : nat) (ms : list kmove) : list event :=
  match ms with
  | [] => []
  | KCall CFnF _ :: r => events ((id + 2) mod 2 ^ 32) k i r
  | KCall CRR _ :: r => EOpen k ReqRR id :: events ((id + 2) mod 2 ^ 32) (S k) i r
  | KCall CStream _ :: r => EOpen k ReqRS id :: events ((id + 2) mod 2 ^ 32) (S k) i r
  | KChannel :: r => EOpen k ReqRC id :: EChannel i id :: events ((id + 2) mod 2 ^ 32) (S k) (S i) r
  | KFrame f :: r => EFrame f :: match f with RRequestChannel q => EOpen k ReqRC (rq_sid q) :: events id (S k) i r | _ => events id k i r end
  | KDrop k' :: r => EDrop k' :: events id k i r
  | _ :: r => events id k i r
  end.

(** What was put into the input of the i-th channel and into what was returned for the j-th request, and whether more can be. *)
Definition fed (i : nat) (ms : list kmove) : list signal := flat_map (fun m => match m with KFeed i' x => if Nat.eqb i' i then [x] else [] | _ => [] end) ms.
Definition cut (i : nat) (ms : list kmove) : bool := existsb (fun m => match m with KCut i' => Nat.eqb i' i | _ => false end) ms.
Definition given (j : nat) (ms : list kmove) : list signal := flat_map (fun m => match m with KGive j' x => if Nat.eqb j' j then [x] else [] | _ => [] end) ms.
Definition quit (j : nat) (ms : list kmove) : bool := existsb (fun m => match m with KQuit j' => Nat.eqb j' j | _ => false end) ms.

(** ** Frames that a frame is answered with *)

(** The receiver of a handler registered for the stream is gone; or a RequestN asked for nothing, or came for no channel. *)
Definition reply_ok (hist : list event) (f : rframe) : Prop :=
  (exists sid k h, f = RCancel sid /\ h <> ReqRR /\ In (EOpen k h sid) hist /\ In (EDrop k) hist) \/
  (exists sid, f = RErrorFrame sid 513 RustCallModel.invalid_n /\ In (EFrame (RRequestN sid 0)) hist) \/
  (exists sid n, f = RErrorFrame sid 513 RustCallModel.missing_id /\ n <> 0 /\ In (EFrame (RRequestN sid n)) hist).
(** The frame comes for a handler that is registered and whose receiver is gone, and is passed on without a look at that. *)
Definition fatal (hist : list event) (f : rframe) : Prop :=
  exists before after k h, opened hist before after k h (RustStreamModel.rframe_sid f) /\ displaced (RustStreamModel.rframe_sid f) after = false /\
    done h (mine k (RustStreamModel.rframe_sid f) true after) = false /\ dropped k after = true /\
    match f with RErrorFrame _ _ _ => True | RCancel _ => h = ReqRR | _ => False end.
