(** Proofs: what the codecs that the generator writes make of a value. *)
From Coq Require Import List NArith ZArith Lia Bool ZifyBool ZifyNat ZifyN.
From Verif Require Import Base BaseLemmas OperationsModel MsgpackModel MsgpackSpec MsgpackClient MsgpackIOProofs MsgpackProofs
  MsgpackReadProofs MsgpackSizeProofs MsgpackTreeProofs TransformProofs GenModel GenSpec GenCheckProofs.
Import ListNotations.
Open Scope N_scope.

(** ** Reading that may panic *)
Definition panics {A} (m : M A) (bs : bytes) : Prop := forall pre rest, fits pre (bs ++ rest) -> m (at_ pre (bs ++ rest)) = Panic.
Definition answers {A} (m : M A) (bs : bytes) (r : option A) : Prop := match r with Some a => reads m bs a | None => panics m bs end.

Lemma answers_bind : forall {A B} (m : M A) (k : A -> M B) b1 b2 r r2,
  answers m b1 r -> (forall a, r = Some a -> answers (k a) b2 (r2 a)) -> answers (rbind m k) (b1 ++ b2) (match r with Some a => r2 a | None => None end).
Proof.
  intros A B m k b1 b2 [a|] r2 H1 H2; cbn [answers] in *.
  - specialize (H2 a eq_refl). destruct (r2 a) as [c|]; cbn [answers] in *.
    + eapply reads_bind; eassumption.
    + intros pre rest F. unfold rbind. rewrite <- app_assoc in F |- *. rewrite (H1 pre (b2 ++ rest) F). apply H2. apply (proj1 (fits_move _ _ _)), F.
  - intros pre rest F. unfold rbind. rewrite <- app_assoc in F |- *. rewrite (H1 pre (b2 ++ rest) F). reflexivity.
Qed.
Lemma answers_reads : forall {A B} (m : M A) (k : A -> M B) b1 b2 a r, reads m b1 a -> answers (k a) b2 r -> answers (rbind m k) (b1 ++ b2) r.
Proof.
  intros A B m k b1 b2 a r H1 H2. apply (answers_bind m k b1 b2 (Some a) (fun _ => r) H1). intros a' E. injection E as <-. exact H2.
Qed.
Lemma answers_map : forall {A B} (m : M A) (f : A -> B) bs r, answers m bs r -> answers (let! a := m in rret (f a)) bs (option_map f r).
Proof.
  intros A B m f bs r H. rewrite <- (app_nil_r bs).
  apply (answers_bind m (fun a => rret (f a)) bs [] r (fun a => Some (f a)) H). intros a _. apply reads_ret.
Qed.
Lemma nillable_answers : forall {A} (m : M A) b bs r, b <> 0xc0 -> answers m (b :: bs) r -> answers (ReadNillable m) (b :: bs) (option_map Some r).
Proof.
  intros A m b bs [a|] D H; cbn [answers option_map] in *; [apply nillable_some; assumption|].
  intros pre rest F. unfold ReadNillable, IsNextNil, rbind at 1 2. cbn [app] in *.
  rewrite peek8_at by assumption. unfold FormatNil. destruct (N.eqb_spec b 0xc0); [congruence|].
  unfold rret at 1. unfold rbind. pose proof (H pre rest F) as X. cbn [app] in X. rewrite X. reflexivity.
Qed.

Fixpoint trav {X Y} (f : X -> option Y) (l : list X) : option (list Y) :=
  match l with [] => Some [] | x :: l' => match f x, trav f l' with Some y, Some ys => Some (y :: ys) | _, _ => None end end.
Lemma trav_snoc : forall {X Y} (f : X -> option Y) l x acc y, trav f l = Some acc -> f x = Some y -> trav f (l ++ [x]) = Some (acc ++ [y]).
Proof.
  intros X Y f l x. induction l as [|z l IH]; intros acc y H E; cbn [trav app] in *.
  - injection H as <-. rewrite E. reflexivity.
  - destruct (f z); [|discriminate H]. destruct (trav f l); [|discriminate H]. injection H as <-. rewrite (IH _ _ eq_refl E). reflexivity.
Qed.
Lemma trav_len : forall {X Y} (f : X -> option Y) l acc, trav f l = Some acc -> length acc = length l.
Proof.
  intros X Y f. induction l as [|z l IH]; intros acc H; cbn [trav] in H; [injection H as <-; reflexivity|].
  destruct (f z); [|discriminate H]. destruct (trav f l); [|discriminate H]. injection H as <-. cbn [length]. rewrite (IH _ eq_refl). reflexivity.
Qed.

Lemma loop_answers : forall {X Y A} (f : X -> option Y) (bs : X -> bytes) (body : A -> M A) (st : list Y -> A) l pre acc, trav f pre = Some acc ->
  (forall pre' x post acc', pre ++ l = pre' ++ x :: post -> trav f pre' = Some acc' ->
    answers (body (st acc')) (bs x) (option_map (fun y => st (acc' ++ [y])) (f x))) ->
  answers (times (len l) body (st acc)) (flat_map bs l) (option_map (fun ys => st (acc ++ ys)) (trav f l)).
Proof.
  intros X Y A f bs body st. induction l as [|x l IH]; intros pre acc T H.
  - cbn [trav option_map flat_map]. rewrite app_nil_r. change (len (@nil X)) with 0. intros p rest F. cbn [app]. rewrite app_nil_r. reflexivity.
  - rewrite len_cons. cbn [flat_map trav]. pose proof (H pre x l acc eq_refl T) as S.
    assert (R : forall y, f x = Some y -> answers (times (len l) body (st (acc ++ [y]))) (flat_map bs l) (option_map (fun ys => st ((acc ++ [y]) ++ ys)) (trav f l))).
    { intros y E. apply (IH (pre ++ [x])); [apply trav_snoc; assumption|]. intros pre' z post acc' E'. apply (H pre' z post). rewrite <- E', <- app_assoc. reflexivity. }
    pose proof (answers_bind (body (st acc)) (times (len l) body) _ (flat_map bs l) _
      (fun a => match f x with Some y => option_map (fun ys => st ((acc ++ [y]) ++ ys)) (trav f l) | None => None end) S) as B.
    assert (E : forall d, times (1 + len l) body (st acc) d = rbind (body (st acc)) (times (len l) body) d)
      by (intro d; rewrite times_succ; unfold rbind; destruct (body (st acc) d) as [[a' d']|e|]; reflexivity).
    assert (G : forall r, answers (rbind (body (st acc)) (times (len l) body)) (bs x ++ flat_map bs l) r -> answers (times (1 + len l) body (st acc)) (bs x ++ flat_map bs l) r).
    { intros [r|] G p rest F; rewrite E; apply G, F. }
    apply G. destruct (f x) as [y|] eqn:Ef; cbn [option_map] in *.
    + assert (Q : option_map (fun ys => st (acc ++ ys)) match trav f l with Some ys => Some (y :: ys) | None => None end = option_map (fun ys => st ((acc ++ [y]) ++ ys)) (trav f l))
        by (destruct (trav f l); cbn [option_map]; [rewrite <- app_assoc; reflexivity|reflexivity]).
      rewrite Q. apply B. intros a Ea. injection Ea as <-. apply R. reflexivity.
    + apply B. intros a Ea. discriminate Ea.
Qed.

(** ** Values *)
Section Env.
Variable f64to32 : N -> N.
Variable pt : bytes -> option gtime.
Context {C : Type}.
Variable parse : N -> scal -> option C.
Variable format : N -> C -> scal.
Variable imported : N -> bool.
Variable types : N -> option def.
Hypothesis types_ok : forall n d, types n = Some d -> def_ok imported d.
Notation val := (gval C).
Notation write := (msgpackWrite format imported types).
Notation dec := (decode f64to32 pt parse imported types).
Notation run := (execs f64to32 pt parse).
Notation rd := (msgpackRead imported).
Notation vtype := (of_type parse format imported types).
Notation bk := (back (C := C) imported types).

Fixpoint gval_all (P : val -> Prop) (h0 : P VNil) (h1 : P VZero) (h2 : forall s, P (VScal s)) (h3 : forall c, P (VImp c)) (h4 : forall v, P v -> P (VPtr v))
  (h5 : forall l, Forall P l -> P (VList l)) (h6 : forall l, Forall (fun kv => P (snd kv)) l -> P (VMap l)) (h7 : forall l, Forall P l -> P (VRec l)) (v : val) : P v :=
  let go := gval_all P h0 h1 h2 h3 h4 h5 h6 h7 in
  match v with
  | VNil => h0 | VZero => h1 | VScal s => h2 s | VImp c => h3 c
  | VPtr w => h4 w (go w)
  | VList l => h5 l ((fix f (l : list val) : Forall P l := match l with [] => Forall_nil _ | w :: l' => Forall_cons _ (go w) (f l') end) l)
  | VMap l => h6 l ((fix f (l : list (scal * val)) : Forall (fun kv => P (snd kv)) l := match l with [] => Forall_nil _ | kv :: l' => Forall_cons _ (go (snd kv)) (f l') end) l)
  | VRec l => h7 l ((fix f (l : list val) : Forall P l := match l with [] => Forall_nil _ | w :: l' => Forall_cons _ (go w) (f l') end) l)
  end.

Fixpoint depth (v : val) : nat :=
  match v with
  | VPtr w => depth w
  | VList l => fold_right (fun w m => Nat.max (depth w) m) 0%nat l
  | VMap l => fold_right (fun kv m => Nat.max (depth (snd kv)) m) 0%nat l
  | VRec l => S (fold_right (fun w m => Nat.max (depth w) m) 0%nat l)
  | _ => 0%nat
  end.
Lemma depth_in : forall l v, In v l -> (depth v <= fold_right (fun w m => Nat.max (depth w) m) 0%nat l)%nat.
Proof. induction l as [|w l IH]; intros v I; cbn [In fold_right] in *; [contradiction|]. destruct I as [->|I]; [lia|]. specialize (IH v I). lia. Qed.
Lemma depth_in2 : forall (l : list (scal * val)) kv, In kv l -> (depth (snd kv) <= fold_right (fun kv m => Nat.max (depth (snd kv)) m) 0%nat l)%nat.
Proof. induction l as [|w l IH]; intros v I; cbn [In fold_right] in *; [contradiction|]. destruct I as [->|I]; [lia|]. specialize (IH v I). lia. Qed.

Definition good (v : val) : Prop := forall o t pl, plain imported pl o t = true -> vtype o t v ->
  exists calls, write t o v = Some calls /\ calls_ok calls /\
  forall fuel x e, (depth v <= fuel)%nat -> pl_of x = Some pl -> (declared x = false -> look x e = Some (zero o t)) ->
    answers (run (dec fuel) (rd x t o) e) (calls_bytes calls) (option_map (fun w => put x w e) (bk o t v)).
Definition good_rec (l : list val) : Prop := forall n, whole types vtype n l ->
  exists calls, encode types write n l = Some calls /\ calls_ok calls /\
  (if unset types n l then calls = [inl PNil] else exists b bs, calls_bytes calls = b :: bs /\ b <> 0xc0) /\
  forall fuel, (depth (VRec l) <= fuel)%nat -> answers (dec fuel n VZero) (calls_bytes calls) (option_map VRec (back_whole types bk n l)).

(** ** Statements *)
Lemma set_answers : forall d x f e bs r, answers (run_fn f64to32 pt parse d f) bs r -> answers (run d [SSet x f] e) bs (option_map (fun w => put x w e) r).
Proof.
  intros d x f e bs r H. unfold execs. cbn [seq exec].
  replace (option_map (fun w => put x w e) r) with (option_map (fun e' : scope val => e') (option_map (fun w => put x w e) r)) by (destruct r; reflexivity).
  apply answers_map, answers_map, H.
Qed.
Lemma look_put : forall {A} x (a b : A) e, (declared x = false -> look x e = Some b) -> look x (put x a e) = Some a.
Proof.
  intros A x a b e L. unfold put. destruct (declared x) eqn:D; [cbn [look]; destruct x; reflexivity|]. specialize (L eq_refl).
  induction e as [|[y c] e IH]; cbn [look update] in *; [discriminate L|]. destruct (var_eqb x y) eqn:E; cbn [look]; rewrite E; [reflexivity|apply IH, L].
Qed.
Lemma update_update : forall {A} x (a b : A) e, update x a (update x b e) = update x a e.
Proof. intros A x a b. induction e as [|[y c] e IH]; cbn [update]; [reflexivity|]. destruct (var_eqb x y) eqn:E; cbn [update]; rewrite E; [reflexivity|]. rewrite IH. reflexivity. Qed.
Lemma update_put : forall {A} x (a b : A) e, update x a (put x b e) = put x a e.
Proof. intros A x a b e. unfold put. destruct (declared x); [cbn [update]; destruct x; reflexivity|apply update_update]. Qed.
Lemma update_len : forall {A} x (a : A) e, length (update x a e) = length e.
Proof. intros A x a. induction e as [|[y c] e IH]; cbn [update]; [reflexivity|]. destruct (var_eqb x y); cbn [length]; [reflexivity|]. rewrite IH. reflexivity. Qed.

Lemma seq_app : forall (one : stmt -> scope val -> M (scope val)) a b e d, seq one (a ++ b) e d = rbind (seq one a e) (seq one b) d.
Proof.
  intros one a. induction a as [|s a IH]; intros b e d; cbn [app seq]; [reflexivity|]. unfold rbind. destruct (one s e d) as [[e' d']|x|]; [|reflexivity|reflexivity].
  rewrite IH. reflexivity.
Qed.
Lemma answers_ext : forall {A} (m m' : M A) bs r, (forall d, m' d = m d) -> answers m bs r -> answers m' bs r.
Proof. intros A m m' bs [a|] E H pre rest F; rewrite E; apply H, F. Qed.

Lemma tables : forall p, decodeFuncs p = means p /\ decodeNillableFuncs p = means p /\ encodeFuncs p = means p /\ encodeNillableFuncs p = means p.
Proof. intro p. destruct p; repeat split; reflexivity. Qed.
Lemma kind_nb : forall p k, means p = Some k -> kind_eqb k KBytes = named p NBytes.
Proof. intros p k H. destruct p; injection H as <- || discriminate H; reflexivity. Qed.
Lemma scal_nil_head : forall s, scal_ok s -> exists b bs, prim_bytes (PVal s) = b :: bs /\ b <> 0xc0.
Proof. intros s H. destruct (scal_head s H) as (b & bs & E & _ & D). exists b, bs. split; [exact E|exact D]. Qed.

Lemma value_is : forall k s, k = Some (kind_of s) -> value k s = Some [inl (PVal s)].
Proof. intros k s ->. cbn [value]. rewrite kind_eqb_refl. reflexivity. Qed.
Lemma pointer_is : forall k s, k = Some (kind_of s) -> pointer k (Some s) = Some [inl (POpt (Some s))].
Proof. intros k s ->. cbn [pointer]. rewrite kind_eqb_refl. reflexivity. Qed.
Lemma one_ok : forall p, prim_ok p -> calls_ok [inl p].
Proof. intros p H. unfold calls_ok. cbn. tauto. Qed.
Lemma one_bytes : forall p, calls_bytes [inl p] = prim_bytes p.
Proof. intro p. unfold calls_bytes. cbn [flat_map]. apply app_nil_r. Qed.

Lemma fread : forall d s, scal_ok s -> answers (run_fn f64to32 pt parse d (FRead (kind_of s))) (prim_bytes (PVal s)) (Some (VScal s)).
Proof. intros d s H. cbn [run_fn]. apply (answers_map _ VScal _ (Some s)). apply scal_reads, H. Qed.
Lemma fnil_some : forall d s, scal_ok s ->
  answers (run_fn f64to32 pt parse d (FNil (kind_of s))) (prim_bytes (PVal s)) (Some (if kind_eqb (kind_of s) KBytes then VScal s else VPtr (VScal s))).
Proof.
  intros d s H. destruct (scal_nil_head s H) as (b & bs & E & D). rewrite E. cbn [run_fn].
  apply (answers_map _ (fun o => match o with None => VNil | Some s0 => if kind_eqb (kind_of s) KBytes then VScal s0 else VPtr (VScal s0) end) _ (Some (Some s))).
  apply (nillable_some _ b bs s D). rewrite <- E. apply scal_reads, H.
Qed.
Lemma fnil_none : forall d k, answers (run_fn f64to32 pt parse d (FNil k)) [0xc0] (Some VNil).
Proof.
  intros d k. cbn [run_fn].
  apply (answers_map _ (fun o => match o with None => VNil | Some s0 => if kind_eqb k KBytes then VScal s0 else VPtr (VScal s0) end) _ (Some None)). apply nillable_nil.
Qed.
Lemma fcast : forall d c a s, scal_ok s -> answers (run_fn f64to32 pt parse d (FCast c a (kind_of s))) (prim_bytes (PVal s)) (Some (VScal s)).
Proof. intros d c a s H. cbn [run_fn]. apply (answers_map _ VScal _ (Some s)). apply scal_reads, H. Qed.
Lemma fnilcast_some : forall d c a s, c <> CBytes -> scal_ok s -> answers (run_fn f64to32 pt parse d (FNilCast c a (kind_of s))) (prim_bytes (PVal s)) (Some (VPtr (VScal s))).
Proof.
  intros d c a s NC H. destruct (scal_nil_head s H) as (b & bs & E & D). rewrite E. cbn [run_fn answers].
  intros pre rest F.
  assert (R : ReadNillable (read_kind f64to32 pt (kind_of s)) (at_ pre ((b :: bs) ++ rest)) = Ret (Some s, at_ (pre ++ b :: bs) rest)).
  { apply (nillable_some _ b bs s D); [|assumption]. rewrite <- E. apply scal_reads, H. }
  destruct c; try rewrite R; try reflexivity. contradiction.
Qed.
Lemma fnilcast_none : forall d c a k, c <> CBytes -> answers (run_fn f64to32 pt parse d (FNilCast c a k)) [0xc0] None.
Proof.
  intros d c a k NC. cbn [run_fn answers]. intros pre rest F.
  assert (R : ReadNillable (read_kind f64to32 pt k) (at_ pre ([0xc0] ++ rest)) = Ret (None, at_ (pre ++ [0xc0]) rest)) by (apply nillable_nil; assumption).
  destruct c; try rewrite R; try reflexivity. contradiction.
Qed.
Lemma fparse : forall d a s c, scal_ok s -> parse a s = Some c -> answers (run_fn f64to32 pt parse d (FParse a (kind_of s))) (prim_bytes (PVal s)) (Some (VImp c)).
Proof.
  intros d a s c H P. cbn [run_fn]. rewrite <- (app_nil_r (prim_bytes (PVal s))). eapply answers_reads; [apply scal_reads, H|]. rewrite P. apply reads_ret.
Qed.
Lemma fnilparse_some : forall d a s c, scal_ok s -> parse a s = Some c -> answers (run_fn f64to32 pt parse d (FNilParse a (kind_of s))) (prim_bytes (PVal s)) (Some (VPtr (VImp c))).
Proof.
  intros d a s c H P. cbn [run_fn]. destruct (scal_nil_head s H) as (b & bs & E & D). rewrite <- (app_nil_r (prim_bytes (PVal s))).
  eapply answers_reads with (a := Some s); [|rewrite P; apply reads_ret]. rewrite E. apply (nillable_some _ b bs s D). rewrite <- E. apply scal_reads, H.
Qed.
Lemma fnilparse_none : forall d a k, answers (run_fn f64to32 pt parse d (FNilParse a k)) [0xc0] (Some VNil).
Proof.
  intros d a k. cbn [run_fn]. rewrite <- (app_nil_r [0xc0]). eapply answers_reads with (a := None); [apply nillable_nil|apply reads_ret].
Qed.

(** ** Records *)
Lemma find_at : forall a f b i, NoDup (map fst (a ++ f :: b)) -> find (a ++ f :: b) (fst f) i = Some ((i + length a)%nat, snd f).
Proof.
  induction a as [|[m u] a IH]; intros [n t] b i ND; cbn [app find fst snd map length] in *.
  - rewrite (proj2 (bytes_eqb n n) eq_refl). rewrite Nat.add_0_r. reflexivity.
  - inversion ND as [|x l X Y]; subst. destruct (bytes_equal n m) eqn:E.
    + apply bytes_eqb in E. subst m. exfalso. apply X. rewrite map_app. apply in_or_app. right. left. reflexivity.
    + pose proof (IH (n, t) b (S i) Y) as Z. cbn [fst snd] in Z. rewrite Z. f_equal. f_equal. lia.
Qed.
Lemma nth_mid : forall (a b : list val) v w, nth (length a) (a ++ v :: b) w = v.
Proof. induction a as [|x a IH]; intros b v w; cbn; [reflexivity|apply IH]. Qed.
Lemma set_nth_mid : forall (a b : list val) v w, set_nth (length a) w (a ++ v :: b) = a ++ w :: b.
Proof. induction a as [|x a IH]; intros b v w; cbn; [reflexivity|rewrite IH; reflexivity]. Qed.

Definition entry (f : nat) (d : def) (l : list val) : M (list val) :=
  let! name := ReadString in
  match find (fields d) name 0 with
  | Some (i, (o, t)) =>
    let! e := run (dec f) (rd VField t o) [(VField, nth i l VZero)] in
    rret (match look VField e with Some w => set_nth i w l | None => l end)
  | None => let! _ := Skip f in rret l
  end.

Lemma name_reads : forall s, scal_ok (SStr s) -> reads ReadString (prim_bytes (PVal (SStr s))) s.
Proof. intros s H. cbn [prim_bytes scal_mv]. apply read_string_reads. apply short_len_limit. exact (proj1 H). Qed.

Lemma entry_answers : forall f d a name o t b v cur1 cur2, fields d = a ++ (name, (o, t)) :: b -> NoDup (map fst (fields d)) -> scal_ok (SStr name) ->
  plain imported Field o t = true -> good v -> vtype o t v -> length cur1 = length a ->
  exists calls, write t o v = Some calls /\ calls_ok calls /\
  ((depth v <= f)%nat -> answers (entry f d (cur1 ++ zero o t :: cur2)) (prim_bytes (PVal (SStr name)) ++ calls_bytes calls) (option_map (fun w => cur1 ++ w :: cur2) (bk o t v))).
Proof.
  intros f d a name o t b v cur1 cur2 E ND S P G T L. destruct (G o t Field P T) as (calls & W & O & R). exists calls. split; [exact W|]. split; [exact O|]. intro D.
  unfold entry. eapply answers_reads; [apply name_reads, S|]. rewrite E in *. pose proof (find_at a (name, (o, t)) b 0 ND) as Fi. cbn [fst snd Nat.add] in Fi. rewrite Fi, <- L, nth_mid.
  specialize (R f VField [(VField, zero o t)] D eq_refl (fun _ => eq_refl)).
  pose proof (answers_map _ (fun e : scope val => match look VField e with Some w => set_nth (length cur1) w (cur1 ++ zero o t :: cur2) | None => cur1 ++ zero o t :: cur2 end) _ _ R) as Q.
  destruct (bk o t v) as [w|]; cbn [option_map] in *; [|exact Q]. cbn [put declared update look var_eqb] in Q. rewrite set_nth_mid in Q. exact Q.
Qed.

Definition fbytes (fv : (bytes * (bool * ty)) * val) : bytes :=
  prim_bytes (PVal (SStr (fst (fst fv)))) ++ match write (snd (snd (fst fv))) (fst (snd (fst fv))) (snd fv) with Some c => calls_bytes c | None => [] end.
Definition fback (fv : (bytes * (bool * ty)) * val) : option val := bk (fst (snd (fst fv))) (snd (snd (fst fv))) (snd fv).

Lemma join_some : forall {A} (a b : list A), join (Some a) (Some b) = Some (a ++ b).
Proof. reflexivity. Qed.

Lemma fields_written : forall fs l, every (fun o t v => vtype o t v) fs l -> Forall good l ->
  Forall (fun f => scal_ok (SStr (fst f)) /\ plain imported Field (fst (snd f)) (snd (snd f)) = true) fs ->
  length fs = length l /\ (exists calls, each_field write fs l = Some calls /\ calls_ok calls /\ calls_bytes calls = flat_map fbytes (combine fs l)) /\
  back_fields bk fs l = trav fback (combine fs l).
Proof.
  induction fs as [|[name [o t]] fs IH]; intros [|v l] E G P; cbn [every] in E; try contradiction.
  - split; [reflexivity|]. split; [|reflexivity]. exists []. repeat split.
  - destruct E as [T E]. inversion G as [|? ? G1 G2]; subst. inversion P as [|? ? [P1 P2] P3]; subst. cbn [fst snd] in *.
    destruct (IH l E G2 P3) as (L & (calls & W & O & B) & K). destruct (G1 o t Field P2 T) as (c & W1 & O1 & _).
    split; [cbn [length]; lia|]. split.
    + exists ([inl (PVal (SStr name))] ++ c ++ calls). cbn [each_field]. rewrite W, W1, !join_some. split; [reflexivity|].
      split; [apply calls_ok_app; [apply one_ok; exact P1|apply calls_ok_app; assumption]|].
      cbn [combine flat_map]. unfold fbytes at 1. cbn [fst snd]. rewrite W1, !calls_bytes_app, one_bytes, B, <- app_assoc. reflexivity.
    + cbn [back_fields combine trav]. unfold fback at 1. cbn [fst snd]. rewrite K. reflexivity.
Qed.

Lemma every_in : forall (P : bool -> ty -> val -> Prop) fs l a f v b, every P fs l -> combine fs l = a ++ (f, v) :: b ->
  exists a1 b1, fs = a1 ++ f :: b1 /\ length a1 = length a /\ P (fst (snd f)) (snd (snd f)) v /\ In v l.
Proof.
  intros P. induction fs as [|[name [o t]] fs IH]; intros [|w l] a f v b E Q; cbn [every combine] in *; try contradiction; try (destruct a; discriminate Q).
  destruct E as [T E]. destruct a as [|z a]; cbn [app] in Q.
  - injection Q as <- <- Q. exists [], fs. cbn. tauto.
  - injection Q as <- Q. destruct (IH l a f v b E Q) as (a1 & b1 & -> & L & T' & I). exists ((name, (o, t)) :: a1), b1. cbn. repeat split; [lia|exact T'|right; exact I].
Qed.

Lemma rec_map_head : forall n, n < 2^32 -> exists b bs, prim_bytes (PMap n) = b :: bs /\ b <> 0xc0.
Proof.
  intros n H. cbn [prim_bytes]. unfold short_len. destruct (N.ltb_spec n 16); [|destruct (_ && _)%bool eqn:X; [discriminate X|destruct (n <? 2^16)]]; cbn [map_head]; eexists; eexists; (split; [reflexivity|]); try discriminate. lia.
Qed.
Lemma size_reads : forall n, n < 2^32 -> reads ReadMapSize (prim_bytes (PMap n)) n.
Proof. intros n H. cbn [prim_bytes]. apply map_len_reads; [apply short_len_not8|apply short_len_limit; exact H]. Qed.
Lemma asize_reads : forall n, n < 2^32 -> reads ReadArraySize (prim_bytes (PArr n)) n.
Proof. intros n H. cbn [prim_bytes]. apply arr_len_reads; [apply short_len_not8|apply short_len_limit; exact H]. Qed.
Lemma nil_size : reads ReadMapSize [0xc0] 0.
Proof. unfold ReadMapSize. change [0xc0] with ([0xc0] ++ []). eapply reads_bind; [apply (get_step 1); reflexivity|]. cbn. apply reads_ret. Qed.

Definition zeros (fs : list (bytes * (bool * ty))) : list val := map (fun f => zero (fst (snd f)) (snd (snd f))) fs.

Lemma decode_is : forall f n d, types n = Some d -> forall x, dec (S f) n VZero x = (let! size := ReadMapSize in let! l := times size (entry f d) (zeros (fields d)) in rret (VRec l)) x.
Proof. intros f n d E x. cbn [decode]. rewrite E. reflexivity. Qed.

Lemma rec_good : forall n fs l, types n = Some (Rec fs) -> every (fun o t v => vtype o t v) fs l -> Forall good l -> 
  exists calls, encode types write n l = Some calls /\ calls_ok calls /\ (exists b bs, calls_bytes calls = b :: bs /\ b <> 0xc0) /\
  forall fuel, (depth (VRec l) <= fuel)%nat -> answers (dec fuel n VZero) (calls_bytes calls) (option_map VRec (back_fields bk fs l)).
Proof.
  intros n fs l E T G. destruct (types_ok n _ E) as (ND & Ln & Fs). cbn [fields] in *.
  destruct (fields_written fs l T G Fs) as (L & (calls & W & O & B) & K).
  exists ([inl (PMap (len fs))] ++ calls). unfold encode. rewrite E, W, join_some.
  split; [reflexivity|]. split; [apply calls_ok_app; [apply one_ok; exact Ln|exact O]|]. rewrite calls_bytes_app, one_bytes, B. split.
  - destruct (rec_map_head (len fs) Ln) as (b & bs & X & D). rewrite X. exists b, (bs ++ flat_map fbytes (combine fs l)). split; [reflexivity|exact D].
  - intros fuel D. destruct fuel as [|f]; [cbn in D; lia|]. cbn [depth] in D.
    apply (answers_ext (let! size := ReadMapSize in let! l := times size (entry f (Rec fs)) (zeros fs) in rret (VRec l))); [intro x; apply (decode_is f n (Rec fs) E)|].
    eapply answers_reads; [apply size_reads, Ln|]. apply answers_map. rewrite K.
    assert (Lc : len fs = len (combine fs l)) by (unfold len; rewrite combine_length, L, Nat.min_id; reflexivity). rewrite Lc.
    pose proof (loop_answers fback fbytes (entry f (Rec fs)) (fun acc => acc ++ zeros (skipn (length acc) fs)) (combine fs l) [] [] eq_refl) as Q.
    cbn [app length skipn] in Q.
    assert (Z : option_map (fun ys => ys ++ zeros (skipn (length ys) fs)) (trav fback (combine fs l)) = trav fback (combine fs l)).
    { destruct (trav fback (combine fs l)) as [ys|] eqn:Y; [|reflexivity]. cbn [option_map]. apply trav_len in Y. rewrite combine_length, L, Nat.min_id in Y.
      rewrite Y, <- L, skipn_all. unfold zeros. cbn [map]. rewrite app_nil_r. reflexivity. }
    rewrite <- Z. apply Q. clear Q Z. intros pre' [[name [o t]] v] post acc' Eq Tr.
    destruct (every_in _ fs l pre' _ v post T Eq) as (a1 & b1 & Ef & La & Tv & Iv). cbn [fst snd] in Tv.
    rewrite Forall_forall in G, Fs. assert (If : In (name, (o, t)) fs) by (rewrite Ef; apply in_or_app; right; left; reflexivity).
    destruct (Fs _ If) as [S P]. cbn [fst snd] in S, P.
    pose proof (trav_len _ _ _ Tr) as Ta.
    assert (Sk : skipn (length acc') fs = (name, (o, t)) :: b1) by (rewrite Ef, Ta, <- La, skipn_app, skipn_all, Nat.sub_diag; reflexivity).
    destruct (entry_answers f (Rec fs) a1 name o t b1 v acc' (zeros b1) Ef ND S P (G v Iv) Tv ltac:(lia)) as (c & W1 & _ & A).
    assert (Sk2 : forall y : val, zeros (skipn (length (acc' ++ [y])) fs) = zeros b1).
    { intro y. rewrite app_length, Ef. replace (length acc' + length [y])%nat with (length (a1 ++ [(name, (o, t))])) by (rewrite app_length; cbn [length]; lia).
      replace (a1 ++ (name, (o, t)) :: b1) with ((a1 ++ [(name, (o, t))]) ++ b1) by (rewrite <- app_assoc; reflexivity).
      rewrite skipn_app, skipn_all, Nat.sub_diag. reflexivity. }
    rewrite Sk. unfold fbytes, fback. cbn [fst snd]. rewrite W1. unfold zeros at 1. cbn [map fst snd]. fold (zeros b1).
    specialize (A ltac:(pose proof (depth_in l v Iv); lia)).
    replace (option_map (fun y => (acc' ++ [y]) ++ zeros (skipn (length (acc' ++ [y])) fs)) (bk o t v)) with (option_map (fun w => acc' ++ w :: zeros b1) (bk o t v)); [exact A|].
    destruct (bk o t v) as [w|]; [|reflexivity]. cbn [option_map]. rewrite Sk2, <- app_assoc. reflexivity.
Qed.

(** ** Unions *)
Notation isnil := (fun v : val => match v with VNil => true | _ => false end).
Lemma back_nils : forall fs (l : list val), length fs = length l -> forallb isnil l = true -> back_member bk fs l = Some (map (fun _ => VNil) fs).
Proof.
  induction fs as [|[name t] fs IH]; intros [|v l] L H; cbn [length] in L; try lia; [reflexivity|]. cbn [forallb] in H. apply andb_true_iff in H. destruct H as [H1 H2].
  destruct v; try discriminate H1. cbn [back_member map]. rewrite (IH l ltac:(lia) H2). reflexivity.
Qed.
Lemma union_written : forall fs l, every (fun o t v => vtype o t v) (fields (Uni fs)) l ->
  length fs = length l /\
  ((forallb isnil l = true /\ first_member write fs l = Some [inl PNil]) \/
   (exists a name t b v, forallb isnil l = false /\ fs = a ++ (name, t) :: b /\ In v l /\ vtype true t v /\
    first_member write fs l = join (Some [inl (PMap 1); inl (PVal (SStr name))]) (write t true v) /\
    back_member bk fs l = option_map (fun w => map (fun _ => VNil) a ++ w :: map (fun _ => VNil) b) (bk true t v))).
Proof.
  induction fs as [|[name t] fs IH]; intros [|v l] E; cbn [fields map every fst snd] in E; try contradiction.
  - split; [reflexivity|]. left. split; reflexivity.
  - destruct E as [T E]. destruct (IH l E) as [L R]. split; [cbn [length]; lia|]. destruct (isnil v) eqn:V.
    + destruct v; try discriminate V. destruct R as [[R1 R2]|(a & nm & u & b & w & R1 & R2 & R3 & R4 & R5 & R6)].
      * left. cbn [forallb first_member is_nil andb]. split; assumption.
      * right. exists ((name, t) :: a), nm, u, b, w. cbn [forallb first_member is_nil andb back_member]. split; [exact R1|]. split; [rewrite R2; reflexivity|].
        split; [right; exact R3|]. split; [exact R4|]. split; [exact R5|]. rewrite R6. destruct (bk true u w); reflexivity.
    + right. exists [], name, t, fs, v. split; [cbn [forallb]; rewrite V; reflexivity|]. split; [reflexivity|]. split; [left; reflexivity|]. split; [exact T|].
      assert (M : map (fun _ : val => VNil) l = map (fun _ : bytes * ty => (VNil : val)) fs).
      { clear - L. revert l L. induction fs as [|f fs IH]; intros [|v l] L; cbn [length] in L; try lia; [reflexivity|]. cbn [map]. rewrite (IH l) by lia. reflexivity. }
      split; destruct v; try discriminate V; try reflexivity; cbn [back_member]; rewrite M; match goal with |- cons_opt ?x _ = option_map _ ?y => change x with y; destruct y; reflexivity end.
Qed.

Lemma uni_good : forall n fs l, types n = Some (Uni fs) -> every (fun o t v => vtype o t v) (fields (Uni fs)) l -> Forall good l ->
  exists calls, encode types write n l = Some calls /\ calls_ok calls /\
  (if forallb isnil l then calls = [inl PNil] else exists b bs, calls_bytes calls = b :: bs /\ b <> 0xc0) /\
  forall fuel, (depth (VRec l) <= fuel)%nat -> answers (dec fuel n VZero) (calls_bytes calls) (option_map VRec (back_member bk fs l)).
Proof.
  intros n fs l E T G. destruct (types_ok n _ E) as (ND & Ln & Fs).
  assert (Zs : zeros (fields (Uni fs)) = map (fun _ => VNil) fs) by (unfold zeros; cbn [fields]; rewrite map_map; reflexivity).
  destruct (union_written fs l T) as [L [[N1 W]|(a & name & t & b & v & N1 & Ef & Iv & Tv & W & B)]].
  - exists [inl PNil]. unfold encode. rewrite E, N1. split; [exact W|]. split; [apply one_ok; exact Logic.I|]. split; [reflexivity|].
    intros [|f] D; [cbn in D; lia|]. rewrite (back_nils fs l L N1). cbn [option_map].
    apply (answers_ext (let! size := ReadMapSize in let! l := times size (entry f (Uni fs)) (zeros (fields (Uni fs))) in rret (VRec l))); [intro x; apply (decode_is f n _ E)|].
    rewrite one_bytes. cbn [prim_bytes mv_bytes]. change [0xc0] with ([0xc0] ++ []). eapply answers_reads; [apply nil_size|].
    apply (answers_map _ VRec [] (Some (map (fun _ => VNil) fs))). rewrite <- Zs. intros pre rest F. cbn [app]. rewrite app_nil_r. reflexivity.
  - assert (If : In (name, (true, t)) (fields (Uni fs))) by (cbn [fields]; rewrite Ef, map_app; apply in_or_app; right; left; reflexivity).
    pose proof Fs as Fs'. rewrite Forall_forall in Fs', G. destruct (Fs' _ If) as [S P]. cbn [fst snd] in S, P.
    assert (Ef' : fields (Uni fs) = map (fun f => (fst f, (true, snd f))) a ++ (name, (true, t)) :: map (fun f => (fst f, (true, snd f))) b)
      by (cbn [fields]; rewrite Ef, map_app; reflexivity).
    assert (En : forall f, exists calls, write t true v = Some calls /\ calls_ok calls /\
      ((depth v <= f)%nat -> answers (entry f (Uni fs) (zeros (fields (Uni fs)))) (prim_bytes (PVal (SStr name)) ++ calls_bytes calls) (back_member bk fs l))).
    { intro f. destruct (entry_answers f (Uni fs) _ name true t _ v (map (fun _ => VNil) a) (map (fun _ => VNil) b) Ef' ND S P (G v Iv) Tv ltac:(rewrite !map_length; reflexivity))
        as (calls & W1 & O & A). exists calls. split; [exact W1|]. split; [exact O|]. intro D. specialize (A D). rewrite B, Zs.
      replace (map (fun _ : bytes * ty => (VNil : val)) fs) with (map (fun _ : bytes * ty => (VNil : val)) a ++ VNil :: map (fun _ => VNil) b) by (rewrite Ef, map_app; reflexivity). exact A. }
    destruct (En 0%nat) as (calls & W1 & O & _).
    exists ([inl (PMap 1); inl (PVal (SStr name))] ++ calls). unfold encode. rewrite E, W, W1, N1, join_some. split; [reflexivity|].
    assert (Bt : calls_bytes ([inl (PMap 1); inl (PVal (SStr name))] ++ calls) = prim_bytes (PMap 1) ++ prim_bytes (PVal (SStr name)) ++ calls_bytes calls)
      by (rewrite calls_bytes_app; unfold calls_bytes at 1; cbn [flat_map]; rewrite app_nil_r, <- app_assoc; reflexivity).
    rewrite Bt. split; [apply calls_ok_app; [|exact O]; split; [exact eq_refl|split; [exact S|exact Logic.I]]|]. split.
    + destruct (rec_map_head 1 eq_refl) as (b0 & bs & X & D). rewrite X. eexists. eexists. split; [reflexivity|exact D].
    + intros [|f] D; [cbn in D; lia|]. cbn [depth] in D. destruct (En f) as (calls' & W1' & _ & A). rewrite W1 in W1'. injection W1' as <-.
      apply (answers_ext (let! size := ReadMapSize in let! l := times size (entry f (Uni fs)) (zeros (fields (Uni fs))) in rret (VRec l))); [intro x; apply (decode_is f n _ E)|].
      eapply answers_reads; [apply size_reads; reflexivity|]. apply answers_map.
      eapply answers_ext; [|apply A; pose proof (depth_in l v Iv); lia]. intro d. reflexivity.
Qed.

Lemma recs_good : forall l, Forall good l -> good_rec l.
Proof.
  intros l G n T. unfold whole in T. destruct (types n) as [[fs|fs]|] eqn:E; [| |contradiction].
  - destruct (rec_good n fs l E T G) as (calls & W & O & H & A). exists calls. unfold unset, back_whole. rewrite E. tauto.
  - destruct (uni_good n fs l E T G) as (calls & W & O & H & A). exists calls. unfold unset, back_whole. rewrite E. tauto.
Qed.

(** ** Lists *)
Definition ibytes (o : bool) (u : ty) (v : val) : bytes := match write u o v with Some c => calls_bytes c | None => [] end.
Lemma items_written : forall o u l, plain imported Item o u = true -> Forall good l -> all (fun v => vtype o u v) l ->
  (exists calls, each_item write o u l = Some calls /\ calls_ok calls /\ calls_bytes calls = flat_map (ibytes o u) l) /\ back_items bk o u l = trav (bk o u) l.
Proof.
  intros o u l P. induction l as [|v l IH]; intros G T; cbn [all] in T.
  - split; [exists []; repeat split|reflexivity].
  - destruct T as [T1 T2]. inversion G as [|? ? G1 G2]; subst. destruct (IH G2 T2) as [(calls & W & O & B) K]. destruct (G1 o u Item P T1) as (c & W1 & O1 & _). split.
    + exists (c ++ calls). cbn [each_item]. rewrite W, W1, join_some. split; [reflexivity|]. split; [apply calls_ok_app; assumption|].
      cbn [flat_map]. unfold ibytes at 1. rewrite W1, calls_bytes_app, B. reflexivity.
    + cbn [back_items trav]. rewrite K. reflexivity.
Qed.

Lemma one_answers : forall d s e bs r, answers (exec f64to32 pt parse d s e) bs r -> answers (run d [s] e) bs r.
Proof.
  intros d s e bs r H. unfold execs. cbn [seq]. replace r with (option_map (fun e' : scope val => e') r) by (destruct r; reflexivity). apply answers_map, H.
Qed.

Lemma item_var : forall x pl, pl_of x = Some pl -> x <> VItem -> forall (a : val) e, look x ((VItem, a) :: e) = look x e.
Proof. intros x pl P D a e. destruct x; try reflexivity; congruence. Qed.

Lemma list_good : forall l o o' u pl, Forall good l -> plain imported pl o (TyList o' u) = true -> len l < 2^32 -> all (fun v => vtype o' u v) l ->
  exists calls, each_item write o' u l = Some calls /\ calls_ok calls /\
  forall fuel x e, (depth (VList l) <= fuel)%nat -> pl_of x = Some pl -> (declared x = false -> look x e = Some (zero o (TyList o' u))) ->
    answers (run (dec fuel) (rd x (TyList o' u) o) e) (prim_bytes (PArr (len l)) ++ calls_bytes calls)
      (option_map (fun w => put x w e) (option_map VList (back_items bk o' u l))).
Proof.
  intros l o o' u pl G P Ln T. cbn [plain] in P. apply andb_true_iff in P. destruct P as [P1 P2].
  destruct (items_written o' u l P2 G T) as [(calls & W & O & B) K]. exists calls. split; [exact W|]. split; [exact O|].
  intros fuel x e D Px Rx. assert (X : x <> VItem) by (intros ->; injection Px as <-; discriminate P1).
  cbn [msgpackRead]. apply one_answers.
  change (exec f64to32 pt parse (dec fuel) (SList x (TyList o' u) (SVar o' u :: rd VItem u o' ++ [SAppend x])) e)
    with (let! n := ReadArraySize in times n (fun e1 => let! e2 := seq (exec f64to32 pt parse (dec fuel)) (SVar o' u :: rd VItem u o' ++ [SAppend x]) e1 in rret (leave e1 e2)) (put x (VList []) e)).
  eapply answers_reads; [apply asize_reads, Ln|]. rewrite B, K.
  replace (option_map (fun w => put x w e) (option_map VList (trav (bk o' u) l))) with (option_map (fun ys => put x (VList ([] ++ ys)) e) (trav (bk o' u) l))
    by (destruct (trav (bk o' u) l); reflexivity).
  apply (loop_answers (bk o' u) (ibytes o' u) _ (fun acc => put x (VList acc) e) l [] [] eq_refl).
  intros pre' v post acc' Eq _. cbn [app] in Eq. assert (Iv : In v l) by (rewrite Eq; apply in_or_app; right; left; reflexivity).
  rewrite Forall_forall in G. assert (T' : vtype o' u v) by (rewrite all_Forall in T; rewrite Forall_forall in T; apply T, Iv).
  destruct (G v Iv o' u Item P2 T') as (c & W1 & _ & R). unfold ibytes. rewrite W1.
  assert (Lx : look x (put x (VList acc') e) = Some (VList acc')) by (eapply look_put; exact Rx).
  set (e1 := put x (VList acc') e) in *.
  specialize (R fuel VItem ((VItem, zero o' u) :: e1) ltac:(cbn [depth] in D; pose proof (depth_in l v Iv); lia) eq_refl (fun _ => eq_refl)).
  cbn [put declared update var_eqb] in R.
  pose proof (answers_bind _ (seq (exec f64to32 pt parse (dec fuel)) [SAppend x]) _ [] _
    (fun e2 => match look VItem e2 with Some w => Some ((VItem, w) :: put x (VList (acc' ++ [w])) e) | None => None end) R) as Q.
  rewrite app_nil_r in Q.
  assert (Q' : answers (seq (exec f64to32 pt parse (dec fuel)) (SVar o' u :: rd VItem u o' ++ [SAppend x]) e1) (calls_bytes c)
    (option_map (fun w => (VItem, w) :: put x (VList (acc' ++ [w])) e) (bk o' u v))).
  { replace (option_map (fun w => (VItem, w) :: put x (VList (acc' ++ [w])) e) (bk o' u v))
      with (match option_map (fun w => (VItem, w) :: e1) (bk o' u v) with Some a => match look VItem a with Some w => Some ((VItem, w) :: put x (VList (acc' ++ [w])) e) | None => None end | None => None end)
      by (destruct (bk o' u v); reflexivity).
    eapply answers_ext; [|apply Q].
    - intro d. cbn [seq exec]. unfold rbind at 1, rret at 1. rewrite seq_app. reflexivity.
    - intros a Ea. destruct (bk o' u v) as [w|]; [|discriminate Ea]. injection Ea as <-. cbn [look var_eqb].
      cbn [seq exec]. rewrite (item_var x pl Px X), Lx. cbn [look var_eqb].
      replace (update x (VList (acc' ++ [w])) ((VItem, w) :: e1)) with ((VItem, w) :: put x (VList (acc' ++ [w])) e).
      + apply (reads_bind _ _ [] []) with (a := (VItem, w) :: put x (VList (acc' ++ [w])) e); apply reads_ret.
      + cbn [update]. destruct x; cbn [var_eqb]; try congruence; unfold e1; rewrite update_put; reflexivity. }
  pose proof (answers_map _ (fun e2 => leave e1 e2) _ _ Q') as Q2.
  destruct (bk o' u v) as [w|]; [|exact Q2]. cbn [option_map] in *.
  replace (leave e1 ((VItem, w) :: put x (VList (acc' ++ [w])) e)) with (put x (VList (acc' ++ [w])) e) in Q2; [exact Q2|].
  unfold leave. replace (length ((VItem, w) :: put x (VList (acc' ++ [w])) e) - length e1)%nat with 1%nat; [reflexivity|].
  cbn [length]. unfold e1, put. destruct (declared x); cbn [length]; rewrite ?update_len; lia.
Qed.

(** ** Maps *)
Lemma scal_eqb_eq : forall a b, scal_eqb a b = true -> a = b.
Proof.
  intros a b H. destruct a, b; cbn [scal_eqb] in H; try discriminate H; try (apply N.eqb_eq in H; congruence); try (apply Z.eqb_eq in H; congruence); try (apply bytes_eqb in H; congruence).
  - apply Bool.eqb_prop in H. congruence.
  - apply andb_true_iff in H. destruct H as [H1 H2]. apply Z.eqb_eq in H1. apply N.eqb_eq in H2. destruct t, t0. cbn in *. congruence.
Qed.
Lemma mset_new : forall k (v : val) l, ~ In k (map fst l) -> mset k v l = l ++ [(k, v)].
Proof.
  intros k v. induction l as [|[k' v'] l IH]; intro H; cbn [mset app map In fst] in *; [reflexivity|].
  destruct (scal_eqb k k') eqn:E; [apply scal_eqb_eq in E; subst k'; tauto|]. rewrite IH by tauto. reflexivity.
Qed.
Definition pbytes (o : bool) (u : ty) (kv : scal * val) : bytes := prim_bytes (PVal (fst kv)) ++ ibytes o u (snd kv).
Definition pback (o : bool) (u : ty) (kv : scal * val) : option (scal * val) := option_map (pair (fst kv)) (bk o u (snd kv)).
Lemma pback_keys : forall o u l acc, trav (pback o u) l = Some acc -> map fst acc = map fst l.
Proof.
  intros o u. induction l as [|[k v] l IH]; intros acc H; cbn [trav] in H; [injection H as <-; reflexivity|]. unfold pback in H at 1. cbn [fst snd] in H.
  destruct (bk o u v); [|discriminate H]. cbn [option_map] in H. destruct (trav (pback o u) l) eqn:E; [|discriminate H]. injection H as <-. cbn [map fst]. rewrite (IH _ eq_refl). reflexivity.
Qed.
Lemma pairs_written : forall k o u l, plain imported Value o u = true -> Forall (fun kv => good (snd kv)) l -> all (fun kv => of_prim k (fst kv) /\ vtype o u (snd kv)) l ->
  (exists calls, each_pair write o u l = Some calls /\ calls_ok calls /\ calls_bytes calls = flat_map (pbytes o u) l) /\ back_pairs bk o u l = trav (pback o u) l.
Proof.
  intros k o u l P. induction l as [|[q v] l IH]; intros G T; cbn [all] in T.
  - split; [exists []; repeat split|reflexivity].
  - destruct T as [[T0 T1] T2]. inversion G as [|? ? G1 G2]; subst. cbn [fst snd] in *.
    destruct (IH G2 T2) as [(calls & W & O & B) K]. destruct (G1 o u Value P T1) as (c & W1 & O1 & _). split.
    + exists ([inl (PVal q)] ++ c ++ calls). cbn [each_pair]. rewrite W, W1, !join_some. split; [reflexivity|].
      split; [apply calls_ok_app; [apply one_ok, (proj2 T0)|apply calls_ok_app; assumption]|].
      cbn [flat_map]. unfold pbytes at 1, ibytes at 1. cbn [fst snd]. rewrite W1, !calls_bytes_app, one_bytes, B, <- app_assoc. reflexivity.
    + cbn [back_pairs trav]. unfold pback at 1. cbn [fst snd]. rewrite K. reflexivity.
Qed.

Lemma map_good : forall l k o o' u pl, Forall (fun kv => good (snd kv)) l -> plain imported pl o (TyMap k o' u) = true -> len l < 2^32 -> NoDup (map fst l) ->
  all (fun kv => of_prim k (fst kv) /\ vtype o' u (snd kv)) l ->
  exists calls, each_pair write o' u l = Some calls /\ calls_ok calls /\
  forall fuel x e, (depth (VMap l) <= fuel)%nat -> pl_of x = Some pl -> (declared x = false -> look x e = Some (zero o (TyMap k o' u))) ->
    answers (run (dec fuel) (rd x (TyMap k o' u) o) e) (prim_bytes (PMap (len l)) ++ calls_bytes calls)
      (option_map (fun w => put x w e) (option_map VMap (back_pairs bk o' u l))).
Proof.
  intros l k o o' u pl G P Ln ND T. cbn [plain] in P. apply andb_true_iff in P. destruct P as [P P2]. apply andb_true_iff in P. destruct P as [P _]. apply andb_true_iff in P. destruct P as [P1 _].
  destruct (pairs_written k o' u l P2 G T) as [(calls & W & O & B) K]. exists calls. split; [exact W|]. split; [exact O|].
  intros fuel x e D Px Rx. assert (X : x <> VValue) by (intros ->; injection Px as <-; discriminate P1).
  cbn [msgpackRead]. apply one_answers.
  change (exec f64to32 pt parse (dec fuel) (SMap x (TyMap k o' u) (SSet VKey (prim_read k false) :: rd VValue u o' ++ [SIndex x])) e)
    with (let! n := ReadMapSize in times n (fun e1 => let! e2 := seq (exec f64to32 pt parse (dec fuel)) (SSet VKey (prim_read k false) :: rd VValue u o' ++ [SIndex x]) e1 in rret (leave e1 e2)) (put x (VMap []) e)).
  eapply answers_reads; [apply size_reads, Ln|]. rewrite B, K.
  replace (option_map (fun w => put x w e) (option_map VMap (trav (pback o' u) l))) with (option_map (fun ys => put x (VMap ([] ++ ys)) e) (trav (pback o' u) l))
    by (destruct (trav (pback o' u) l); reflexivity).
  apply (loop_answers (pback o' u) (pbytes o' u) _ (fun acc => put x (VMap acc) e) l [] [] eq_refl).
  intros pre' [q v] post acc' Eq Tr. cbn [app] in Eq. assert (Iv : In (q, v) l) by (rewrite Eq; apply in_or_app; right; left; reflexivity).
  assert (Nq : ~ In q (map fst acc')).
  { rewrite (pback_keys _ _ _ _ Tr). rewrite Eq, map_app in ND. cbn [map fst] in ND. apply NoDup_remove_2 in ND. intro I. apply ND, in_or_app. left. exact I. }
  rewrite Forall_forall in G. assert (T' : of_prim k q /\ vtype o' u v) by (rewrite all_Forall in T; rewrite Forall_forall in T; apply (T _ Iv)). destruct T' as [[Tk Sq] T'].
  destruct (G _ Iv o' u Value P2 T') as (c & W1 & _ & R). unfold pbytes, ibytes. cbn [fst snd]. cbn [snd] in W1. rewrite W1.
  assert (Lx : look x (put x (VMap acc') e) = Some (VMap acc')) by (eapply look_put; exact Rx).
  set (e1 := put x (VMap acc') e) in *.
  assert (Kr : answers (exec f64to32 pt parse (dec fuel) (SSet VKey (prim_read k false)) e1) (prim_bytes (PVal q)) (Some ((VKey, VScal q) :: e1))).
  { cbn [exec]. apply (answers_map _ (fun w => put VKey w e1) _ (Some (VScal q))). unfold prim_read. rewrite (proj1 (tables k)), Tk. apply fread, Sq. }
  specialize (R fuel VValue ((VKey, VScal q) :: e1) ltac:(cbn [depth] in D; pose proof (depth_in2 l _ Iv); cbn [snd] in *; lia) eq_refl ltac:(intro Z; discriminate Z)).
  cbn [put declared snd] in R.
  pose proof (answers_bind _ (seq (exec f64to32 pt parse (dec fuel)) [SIndex x]) _ [] _
    (fun e2 => match look VValue e2 with Some w => Some ((VValue, w) :: (VKey, VScal q) :: put x (VMap (acc' ++ [(q, w)])) e) | None => None end) R) as Q.
  rewrite app_nil_r in Q.
  assert (Q' : answers (seq (exec f64to32 pt parse (dec fuel)) (SSet VKey (prim_read k false) :: rd VValue u o' ++ [SIndex x]) e1) (prim_bytes (PVal q) ++ calls_bytes c)
    (option_map (fun w => (VValue, w) :: (VKey, VScal q) :: put x (VMap (acc' ++ [(q, w)])) e) (bk o' u v))).
  { change (seq (exec f64to32 pt parse (dec fuel)) (SSet VKey (prim_read k false) :: rd VValue u o' ++ [SIndex x]) e1)
      with (rbind (exec f64to32 pt parse (dec fuel) (SSet VKey (prim_read k false)) e1) (seq (exec f64to32 pt parse (dec fuel)) (rd VValue u o' ++ [SIndex x]))).
    eapply answers_reads; [exact Kr|].
    replace (option_map (fun w => (VValue, w) :: (VKey, VScal q) :: put x (VMap (acc' ++ [(q, w)])) e) (bk o' u v))
      with (match option_map (fun w => (VValue, w) :: (VKey, VScal q) :: e1) (bk o' u v) with Some a => match look VValue a with Some w => Some ((VValue, w) :: (VKey, VScal q) :: put x (VMap (acc' ++ [(q, w)])) e) | None => None end | None => None end)
      by (destruct (bk o' u v); reflexivity).
    eapply answers_ext; [|apply Q].
    - intro d. rewrite seq_app. reflexivity.
    - intros a Ea. destruct (bk o' u v) as [w|]; [|discriminate Ea]. injection Ea as <-. cbn [look var_eqb].
      cbn [seq exec]. replace (look x ((VValue, w) :: (VKey, VScal q) :: e1)) with (look x e1) by (destruct x; try reflexivity; [discriminate Px|congruence]).
      rewrite Lx. cbn [look var_eqb]. rewrite (mset_new q w acc' Nq).
      replace (update x (VMap (acc' ++ [(q, w)])) ((VValue, w) :: (VKey, VScal q) :: e1)) with ((VValue, w) :: (VKey, VScal q) :: put x (VMap (acc' ++ [(q, w)])) e).
      + apply (reads_bind _ _ [] []) with (a := (VValue, w) :: (VKey, VScal q) :: put x (VMap (acc' ++ [(q, w)])) e); apply reads_ret.
      + cbn [update]. destruct x; cbn [var_eqb]; try congruence; try discriminate Px; unfold e1; rewrite update_put; reflexivity. }
  pose proof (answers_map _ (fun e2 => leave e1 e2) _ _ Q') as Q2. unfold pback. cbn [fst snd].
  destruct (bk o' u v) as [w|]; [|exact Q2]. cbn [option_map] in *.
  replace (leave e1 ((VValue, w) :: (VKey, VScal q) :: put x (VMap (acc' ++ [(q, w)])) e)) with (put x (VMap (acc' ++ [(q, w)])) e) in Q2; [exact Q2|].
  unfold leave. replace (length ((VValue, w) :: (VKey, VScal q) :: put x (VMap (acc' ++ [(q, w)])) e) - length e1)%nat with 2%nat; [reflexivity|].
  cbn [length]. unfold e1, put. destruct (declared x); cbn [length]; rewrite ?update_len; lia.
Qed.

(** ** All values *)
Lemma plain_prim : forall pl o p, plain imported pl o (TyPrim p) = true -> exists k, means p = Some k.
Proof. intros pl o p P. destruct p; cbn in P; try discriminate P; eexists; reflexivity. Qed.
Lemma plain_alias : forall pl o a p, plain imported pl o (TyAlias a p) = true ->
  exists k, means p = Some k /\ (imported a = false -> (o = false -> exists c, castFuncs p = Some c) /\ (o = true -> exists c, castNillableFuncs p = Some c /\ c <> CBytes)).
Proof.
  intros pl o a p P. cbn [plain] in P. destruct (imported a) eqn:I; destruct p, o; cbn in P; try discriminate P; eexists; (split; [reflexivity|]);
  intro Z; try discriminate Z; (split; intro Y; try discriminate Y; eexists; first [reflexivity|split; [reflexivity|discriminate]]).
Qed.
Lemma fdecodenil : forall d n b bs r, b <> 0xc0 -> answers (d n VZero) (b :: bs) r -> answers (run_fn f64to32 pt parse d (FDecodeNil n)) (b :: bs) (option_map (fun v => VPtr v) r).
Proof.
  intros d n b bs r D H. cbn [run_fn]. apply (nillable_answers _ b bs r D) in H.
  pose proof (answers_map _ (fun o : option val => match o with None => VNil | Some v => VPtr v end) _ _ H) as Q. destruct r; exact Q.
Qed.
Lemma fdecodenil_none : forall d n, answers (run_fn f64to32 pt parse d (FDecodeNil n)) [0xc0] (Some VNil).
Proof.
  intros d n. cbn [run_fn]. apply (answers_map _ (fun o : option val => match o with None => VNil | Some v => VPtr v end) _ (Some None)). apply nillable_nil.
Qed.

Lemma good_nil : good VNil.
Proof.
  intros o t pl P T. destruct t as [p|n|n|n|a p|o' u|k o' u]; cbn [of_type] in T.
  - subst o. destruct (plain_prim _ _ _ P) as [k K]. destruct (tables p) as (T1 & T2 & T3 & T4). exists [inl (POpt None)]. cbn [msgpackWrite]. rewrite T4, K. cbn [pointer].
    split; [reflexivity|]. split; [apply one_ok; exact Logic.I|]. intros fuel x e _ _ _. cbn [msgpackRead]. unfold prim_read. rewrite T2, K, one_bytes. cbn [back]. apply set_answers. apply fnil_none.
  - subst o. exists [inl PNil]. split; [reflexivity|]. split; [apply one_ok; exact Logic.I|]. intros fuel x e _ _ _. cbn [msgpackRead negb andb back]. rewrite one_bytes. apply set_answers. apply fdecodenil_none.
  - subst o. exists [inl PNil]. split; [reflexivity|]. split; [apply one_ok; exact Logic.I|]. intros fuel x e _ _ _. cbn [msgpackRead negb andb back]. rewrite one_bytes. apply set_answers. apply fdecodenil_none.
  - subst o. exists [inl (POpt None)]. split; [reflexivity|]. split; [apply one_ok; exact Logic.I|]. intros fuel x e _ _ _. cbn [msgpackRead back]. rewrite one_bytes. apply set_answers. apply fnilcast_none. discriminate.
  - subst o. destruct (plain_alias _ _ _ _ P) as (k & K & H). destruct (tables p) as (T1 & T2 & T3 & T4). cbn [msgpackWrite msgpackRead back]. unfold alias_read. rewrite T2, T4, K. destruct (imported a).
    + exists [inl PNil]. split; [reflexivity|]. split; [apply one_ok; exact Logic.I|]. intros fuel x e _ _ _. rewrite one_bytes. apply set_answers. apply fnilparse_none.
    + destruct (H eq_refl) as [_ H2]. destruct (H2 eq_refl) as (c & Ec & Nc). exists [inl (POpt None)]. split; [reflexivity|]. split; [apply one_ok; exact Logic.I|].
      intros fuel x e _ _ _. rewrite one_bytes, Ec. apply set_answers. apply fnilcast_none, Nc.
  - destruct (list_good [] o o' u pl (Forall_nil _) P eq_refl Logic.I) as (calls & W & O & A). injection W as <-. exists [inl (PArr 0)]. split; [reflexivity|]. split; [apply one_ok; exact eq_refl|].
    intros fuel x e D Px Rx. specialize (A fuel x e D Px Rx). exact A.
  - destruct (map_good [] k o o' u pl (Forall_nil _) P eq_refl (NoDup_nil _) Logic.I) as (calls & W & O & A). injection W as <-. exists [inl (PMap 0)]. split; [reflexivity|]. split; [apply one_ok; exact eq_refl|].
    intros fuel x e D Px Rx. specialize (A fuel x e D Px Rx). exact A.
Qed.

Lemma good_scal : forall s, good (VScal s).
Proof.
  intros s o t pl P T. destruct t as [p|n|n|n|a p|o' u|k o' u]; cbn [of_type] in T; try contradiction.
  - destruct T as [B [K S]]. destruct (tables p) as (T1 & T2 & T3 & T4). cbn [msgpackRead back]. unfold prim_read. rewrite T1, T2, K. destruct o.
    + specialize (B eq_refl). subst p. cbn [msgpackWrite]. injection K as K. rewrite <- K. cbn [kind_eqb]. exists [inl (POpt (Some s))].
      split; [apply (pointer_is _ s); rewrite <- K; reflexivity|]. split; [apply one_ok; exact S|]. intros fuel x e _ _ _. rewrite one_bytes. apply set_answers.
      pose proof (fnil_some (dec fuel) s S) as Q. rewrite <- K in Q. exact Q.
    + cbn [msgpackWrite]. exists [inl (PVal s)]. split; [apply value_is; rewrite T3; exact K|]. split; [apply one_ok; exact S|]. intros fuel x e _ _ _. rewrite one_bytes. apply set_answers. apply fread, S.
  - destruct T as [-> [K S]]. exists [inl (PVal s)]. cbn [msgpackWrite msgpackRead back]. split; [apply value_is; exact K|]. split; [apply one_ok; exact S|]. intros fuel x e _ _ _. rewrite one_bytes. apply set_answers.
    cbn [means] in K. injection K as K. rewrite K. apply fcast, S.
  - destruct T as (-> & I & K & S). destruct (plain_alias _ _ _ _ P) as (k & K' & H). destruct (H I) as [H1 _]. destruct (H1 eq_refl) as [c Ec].
    destruct (tables p) as (T1 & T2 & T3 & T4). exists [inl (PVal s)]. cbn [msgpackWrite msgpackRead back]. unfold alias_read. rewrite I, T1, K, Ec.
    split; [apply value_is; rewrite T3; exact K|]. split; [apply one_ok; exact S|]. intros fuel x e _ _ _. rewrite one_bytes. apply set_answers. apply fcast, S.
Qed.

Lemma good_imp : forall c, good (VImp c).
Proof.
  intros c o t pl P T. destruct t as [p|n|n|n|a p|o' u|k o' u]; cbn [of_type] in T; try contradiction.
  destruct T as (-> & I & [K S] & Pa). destruct (tables p) as (T1 & T2 & T3 & T4). exists [inl (PVal (format a c))]. cbn [msgpackWrite msgpackRead back]. unfold alias_read. rewrite I, T1, K.
  split; [apply value_is; rewrite T3; exact K|]. split; [apply one_ok; exact S|]. intros fuel x e _ _ _. rewrite one_bytes. apply set_answers. apply fparse; assumption.
Qed.

Lemma good_ptr_scal : forall s, good (VPtr (VScal s)).
Proof.
  intros s o t pl P T. destruct t as [p|n|n|n|a p|o' u|k o' u]; cbn [of_type] in T; try contradiction.
  - destruct T as (-> & NB & K & S). destruct (tables p) as (T1 & T2 & T3 & T4). cbn [msgpackRead back msgpackWrite]. unfold prim_read. rewrite T2, K.
    assert (B : kind_eqb (kind_of s) KBytes = false) by (rewrite (kind_nb p _ K); destruct p; try reflexivity; congruence).
    rewrite B. exists [inl (POpt (Some s))]. split; [apply pointer_is; rewrite T4; exact K|]. split; [apply one_ok; exact S|]. intros fuel x e _ _ _. rewrite one_bytes. apply set_answers.
    pose proof (fnil_some (dec fuel) s S) as Q. rewrite B in Q. exact Q.
  - destruct T as [-> [K S]]. exists [inl (POpt (Some s))]. cbn [msgpackWrite msgpackRead back]. split; [apply pointer_is; exact K|]. split; [apply one_ok; exact S|]. intros fuel x e _ _ _. rewrite one_bytes. apply set_answers.
    cbn [means] in K. injection K as K. rewrite K. apply fnilcast_some; [discriminate|exact S].
  - destruct T as (-> & I & K & S). destruct (plain_alias _ _ _ _ P) as (k & K' & H). destruct (H I) as [_ H1]. destruct (H1 eq_refl) as (c & Ec & Nc).
    destruct (tables p) as (T1 & T2 & T3 & T4). exists [inl (POpt (Some s))]. cbn [msgpackWrite msgpackRead back]. unfold alias_read. rewrite I, T2, K, Ec.
    split; [apply pointer_is; rewrite T4; exact K|]. split; [apply one_ok; exact S|]. intros fuel x e _ _ _. rewrite one_bytes. apply set_answers. apply fnilcast_some; assumption.
Qed.

Lemma good_ptr_imp : forall c, good (VPtr (VImp c)).
Proof.
  intros c o t pl P T. destruct t as [p|n|n|n|a p|o' u|k o' u]; cbn [of_type] in T; try contradiction.
  destruct T as (-> & I & [K S] & Pa). destruct (tables p) as (T1 & T2 & T3 & T4). exists [inl (PVal (format a c))]. cbn [msgpackWrite msgpackRead back]. unfold alias_read. rewrite I, T2, K.
  split; [apply value_is; rewrite T3; exact K|]. split; [apply one_ok; exact S|]. intros fuel x e _ _ _. rewrite one_bytes. apply set_answers. apply fnilparse_some; assumption.
Qed.

Lemma ptr_rec : forall l n, good_rec l -> whole types vtype n l -> exists calls, encode types write n l = Some calls /\ calls_ok calls /\
  forall fuel x e, (depth (VRec l) <= fuel)%nat ->
    answers (run (dec fuel) [SSet x (FDecodeNil n)] e) (calls_bytes calls) (option_map (fun w => put x w e) (if unset types n l then Some VNil else option_map (fun l => VPtr (VRec l)) (back_whole types bk n l))).
Proof.
  intros l n G T. destruct (G n T) as (calls & W & O & H & A). exists calls. split; [exact W|]. split; [exact O|]. intros fuel x e D. apply set_answers.
  destruct (unset types n l).
  - subst calls. rewrite one_bytes. apply fdecodenil_none.
  - destruct H as (b & bs & B & Nb). rewrite B in *. pose proof (fdecodenil _ n b bs _ Nb (A fuel D)) as Q.
    destruct (back_whole types bk n l); exact Q.
Qed.
Lemma good_ptr_rec : forall l, good_rec l -> good (VPtr (VRec l)).
Proof.
  intros l G o t pl P T. destruct t as [p|n|n|n|a p|o' u|k o' u]; cbn [of_type] in T; try contradiction; destruct T as [-> T];
  (destruct (ptr_rec l n G T) as (calls & W & O & A); exists calls; split; [exact W|]; split; [exact O|]; intros fuel x e D _ _; cbn [msgpackRead negb andb back]; apply A, D).
Qed.

Lemma good_rec_val : forall l, good_rec l -> good (VRec l).
Proof.
  intros l G o t pl P T. destruct t as [p|n|n|n|a p|o' u|k o' u]; cbn [of_type] in T; try contradiction; destruct T as [-> T];
  (destruct (G n T) as (calls & W & O & H & A); exists calls; split; [exact W|]; split; [exact O|]; intros fuel x e D Px Rx; cbn [msgpackRead negb andb back]).
  - destruct (declared x) eqn:Dx; cbn [negb].
    + apply set_answers. cbn [run_fn]. apply A, D.
    + apply one_answers. cbn [exec]. rewrite (Rx eq_refl). cbn [zero].
      pose proof (answers_map _ (fun v' => update x v' e) _ _ (A fuel D)) as Q. unfold put. rewrite Dx. exact Q.
  - apply set_answers. cbn [run_fn]. apply A, D.
Qed.

Lemma good_all : forall v, good v /\ match v with VRec l => good_rec l | _ => True end.
Proof.
  apply gval_all.
  - split; [apply good_nil|exact Logic.I].
  - split; [|exact Logic.I]. intros o t pl P T. destruct t; contradiction.
  - intro s. split; [apply good_scal|exact Logic.I].
  - intro c. split; [apply good_imp|exact Logic.I].
  - intros v [G Gr]. split; [|exact Logic.I]. destruct v as [| |s|c|w|l|l|l]; try (intros o t pl P T; destruct t; contradiction).
    + apply good_ptr_scal.
    + apply good_ptr_imp.
    + apply good_ptr_rec, Gr.
  - intros l G. split; [|exact Logic.I]. assert (G' : Forall good l) by (eapply Forall_impl; [|exact G]; intros v [X _]; exact X).
    intros o t pl P T. destruct t as [p|n|n|n|a p|o' u|k o' u]; cbn [of_type] in T; try contradiction. destruct T as [Ln T].
    destruct (list_good l o o' u pl G' P Ln T) as (calls & W & O & A). exists ([inl (PArr (u32 (len l)))] ++ calls). cbn [msgpackWrite]. rewrite W, join_some. split; [reflexivity|].
    rewrite u32_small by exact Ln. split; [apply calls_ok_app; [apply one_ok; exact Ln|exact O]|]. intros fuel x e D Px Rx. rewrite calls_bytes_app, one_bytes. cbn [back]. apply A; assumption.
  - intros l G. split; [|exact Logic.I]. assert (G' : Forall (fun kv => good (snd kv)) l) by (eapply Forall_impl; [|exact G]; intros v [X _]; exact X).
    intros o t pl P T. destruct t as [p|n|n|n|a p|o' u|k o' u]; cbn [of_type] in T; try contradiction. destruct T as (Ln & ND & T).
    destruct (map_good l k o o' u pl G' P Ln ND T) as (calls & W & O & A). exists ([inl (PMap (u32 (len l)))] ++ calls). cbn [msgpackWrite]. rewrite W, join_some. split; [reflexivity|].
    rewrite u32_small by exact Ln. split; [apply calls_ok_app; [apply one_ok; exact Ln|exact O]|]. intros fuel x e D Px Rx. rewrite calls_bytes_app, one_bytes. cbn [back]. apply A; assumption.
  - intros l G. assert (G' : Forall good l) by (eapply Forall_impl; [|exact G]; intros v [X _]; exact X).
    pose proof (recs_good l G') as R. split; [apply good_rec_val, R|exact R].
Qed.

Lemma round_trip : forall n v, vtype false (TyType n) v ->
  exists calls most, write (TyType n) false v = Some calls /\ calls_ok calls /\
  (len (calls_bytes calls) + calls_excess calls < 2^32 ->
   exists data, ToBytes format imported types n v = Some (Ret data) /\
   forall fuel, (most <= fuel)%nat -> FromBytes f64to32 pt parse imported types fuel n data = match bk false (TyType n) v with Some w => Ret w | None => Panic end).
Proof.
  intros n v T. destruct v as [| |s|c|w|l|l|l]; cbn [of_type] in T; try contradiction; try discriminate T.
  { destruct w; try contradiction. destruct T as [Z _]. discriminate Z. }
  destruct T as [_ T]. destruct (good_all (VRec l)) as [_ G]. destruct (G n T) as (calls & W & O & _ & A). exists calls, (depth (VRec l)).
  split; [exact W|]. split; [exact O|]. intro B. eexists. split.
  - unfold ToBytes. cbn [msgpackWrite]. rewrite W. f_equal. apply to_bytes_result; [apply same_calls_refl|assumption|assumption|assumption].
  - intros fuel D. specialize (A fuel D). unfold FromBytes. cbn [back].
    assert (F : fits [] (calls_bytes calls ++ repeat 0 (N.to_nat (calls_excess calls)))) by (unfold fits; rewrite len_app, len_repeat; change (len (@nil N)) with 0; lia).
    change (new_dr (calls_bytes calls ++ repeat 0 (N.to_nat (calls_excess calls)))) with (at_ [] (calls_bytes calls ++ repeat 0 (N.to_nat (calls_excess calls)))).
    destruct (back_whole types bk n l) as [w|]; cbn [option_map answers] in *; rewrite (A [] _ F); reflexivity.
Qed.

(** ** Values that come back as they were *)
Lemma full_back : forall v o t, full imported types o t v -> vtype o t v -> bk o t v = Some v.
Proof.
  assert (R : forall l, Forall (fun v => forall o t, full imported types o t v -> vtype o t v -> bk o t v = Some v) l ->
    forall n, full_whole types (full imported types) n l -> whole types vtype n l -> back_whole types bk n l = Some l /\ unset types n l = false).
  { intros l H n F T. unfold full_whole, whole, back_whole, unset in *. destruct (types n) as [[fs|fs]|]; [| |contradiction].
    - split; [|reflexivity]. cbn [fields] in T. clear - H F T. revert fs F T. induction l as [|v l IH]; intros [|[name [o t]] fs] F T; cbn [every back_fields] in *; try contradiction; [reflexivity|].
      inversion H as [|? ? H1 H2]; subst. destruct F as [F1 F2], T as [T1 T2]. rewrite (H1 o t F1 T1), (IH H2 fs F2 T2). reflexivity.
    - revert fs F T. induction l as [|v l IH]; intros [|[name t] fs] F T; cbn [one_member fields map every fst snd] in *; try contradiction; try (destruct v; contradiction).
      inversion H as [|? ? H1 H2]; subst. destruct T as [T1 T2]. destruct (isnil v) eqn:V.
      + destruct v; try discriminate V. destruct (IH H2 fs F T2) as [B U]. cbn [back_member forallb andb]. rewrite B. split; [reflexivity|exact U].
      + assert (F' : full imported types true t v /\ Forall (fun w => w = VNil) l) by (destruct v; try discriminate V; exact F). destruct F' as [F1 F2].
        split; [|cbn [forallb]; rewrite V; reflexivity].
        assert (M : map (fun _ : val => (VNil : val)) l = l) by (clear - F2; induction F2 as [|w l E _ IH]; cbn [map]; [reflexivity|]; rewrite IH, E; reflexivity).
        pose proof (H1 true t F1 T1) as Q. destruct v; try discriminate V; cbn [back_member]; rewrite Q, M; reflexivity. }
  assert (S : forall v, (forall o t, full imported types o t v -> vtype o t v -> bk o t v = Some v) /\
    match v with VRec l => forall n, full_whole types (full imported types) n l -> whole types vtype n l -> back_whole types bk n l = Some l /\ unset types n l = false | _ => True end).
  { apply gval_all.
    - split; [|exact Logic.I]. intros o t F T. destruct t; cbn [full back] in *; try reflexivity; try contradiction. rewrite F. reflexivity.
    - split; [|exact Logic.I]. intros o t F T. destruct t; contradiction.
    - intro s. split; [|exact Logic.I]. intros o t F T. destruct t; try contradiction; reflexivity.
    - intro c. split; [|exact Logic.I]. intros o t F T. destruct t; try contradiction; reflexivity.
    - intros v [_ H]. split; [|exact Logic.I]. intros o t F T. destruct v as [| |s|c|w|l|l|l]; try (destruct t; contradiction); try (destruct t; try contradiction; reflexivity).
      destruct t; try contradiction; cbn [full of_type back] in *; destruct T as [_ T]; destruct (H _ F T) as [B U]; rewrite U, B; reflexivity.
    - intros l H. split; [|exact Logic.I]. intros o t F T. destruct t as [p|n|n|n|a p|o' u|k o' u]; try contradiction. cbn [full of_type back] in *. destruct T as [_ T].
      assert (B : back_items bk o' u l = Some l); [|rewrite B; reflexivity].
      clear - H F T. induction l as [|v l IH]; cbn [all back_items] in *; [reflexivity|]. inversion H as [|? ? [H1 _] H2]; subst. destruct F as [F1 F2], T as [T1 T2].
      rewrite (H1 _ _ F1 T1), (IH H2 F2 T2). reflexivity.
    - intros l H. split; [|exact Logic.I]. intros o t F T. destruct t as [p|n|n|n|a p|o' u|k o' u]; try contradiction. cbn [full of_type back] in *. destruct T as (_ & _ & T).
      assert (B : back_pairs bk o' u l = Some l); [|rewrite B; reflexivity].
      clear - H F T. induction l as [|[q v] l IH]; cbn [all back_pairs fst snd] in *; [reflexivity|]. inversion H as [|? ? [H1 _] H2]; subst. cbn [snd] in H1. destruct F as [F1 F2], T as [[_ T1] T2].
      rewrite (H1 _ _ F1 T1), (IH H2 F2 T2). reflexivity.
    - intros l H. assert (H' : Forall (fun v => forall o t, full imported types o t v -> vtype o t v -> bk o t v = Some v) l) by (eapply Forall_impl; [|exact H]; intros v [X _]; exact X).
      pose proof (R l H') as Q. split; [|exact Q]. intros o t F T. destruct t; try contradiction; cbn [full of_type back] in *; destruct T as [_ T]; rewrite (proj1 (Q _ F T)); reflexivity. }
  intros v. apply (proj1 (S v)).
Qed.
End Env.
