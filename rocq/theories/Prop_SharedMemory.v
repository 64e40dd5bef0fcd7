(** C61: elements sent through shared memory.  C62: batches made in shared memory. *)
From Verif Require Import Base ListFacts Tree SharedMemory SharedMemorySpec SharedMemory_proofs Prop_Tree DataLoader_proofs Interleave_proofs.

Local Ltac spl := repeat match goal with |- _ /\ _ => split end.

(** ** C61 *)

(** Whatever the structure and the threshold, the receiver gets the same structure with the same arrays.  Segments that existed
    before keep their contents.  When the receiver deletes the arrays, in any order, every segment is freed exactly once and
    no other is; the same happens when the element is discarded unopened. *)
Theorem C61_transport {D V X} (np : numpy D V) min_size (m : memory V) (t : tree (leaf D V X)) :
  (forall d, 0 < np_itemsize np d) -> sound m -> Forall (user_leaf m) (flatten t) -> NoDup (owned (flatten t)) ->
  exists m' t' t'', copy_to_shm np min_size m t = Ok (m', t') /\ open_from_shm m' t' = Ok t'' /\
    same_structure t t'' /\ Forall2 same_leaf (flatten t) (flatten t'') /\
    (forall n, In n (names m) -> seg m' n = seg m n) /\
    (forall order, Permutation order (owned (flatten t'')) ->
       exists m'', free m' order = Ok m'' /\ m_segs m'' = others (owned (flatten t)) (m_segs m)) /\
    exists m'', unlink_shm m' t' = Ok m'' /\ m_segs m'' = others (owned (flatten t)) (m_segs m).
Proof.
  intros Hi Hs HF Hnd.
  destruct (copy_leaves_ok np min_size (flatten t) Hi m Hs HF) as (m' & new & ls' & E & S' & Hs' & N & F & P & O).
  destruct (O m' []) as (ls'' & E'' & Hsame & Hown); [now rewrite app_nil_r|].
  assert (Hlen : length ls' = length (flatten t)).
  { apply Forall2_length in Hsame. apply sequence_ok in E''. apply Forall2_length in E''. rewrite map_length in E''. lia. }
  destruct (C51_unflatten_flatten t ls' [] Hlen) as (t' & T1 & T2 & T3). rewrite app_nil_r in T1.
  assert (Hlen' : length ls'' = length (flatten t')) by (rewrite T2, Hlen; symmetry; eapply Forall2_length; eassumption).
  destruct (C51_unflatten_flatten t' ls'' [] Hlen') as (t'' & U1 & U2 & U3). rewrite app_nil_r in U1.
  exists m', t', t''.
  assert (Hin : forall n, In n (owned (flatten t)) -> In n (names m)).
  { intros n Hn. unfold owned in Hn. apply in_flat_map in Hn as (l & Hl & Hn). rewrite Forall_forall in HF. specialize (HF l Hl).
    destruct l as [|n' a| |]; try easy. destruct Hn as [<-|[]]. destruct HF as (_ & HF). eapply SharedMemory_proofs.lookup_in; exact HF. }
  assert (Hfree : forall order, Permutation order (metas ls') -> exists m'', free m' order = Ok m'' /\ m_segs m'' = others (owned (flatten t)) (m_segs m)).
  { intros order Hord. assert (Hmem : forall n, In n order <-> In n (owned (flatten t)) \/ In n (map fst new)).
    { intros n. rewrite <- in_app_iff. split; apply Permutation_in; [|symmetry]; now rewrite Hord. }
    destruct Hs as (Hn1 & Hn2). rewrite Forall_forall in Hn2, F. destruct Hs' as (Hn3 & _). unfold names in Hn3. rewrite S', map_app in Hn3.
    eexists. split; [apply free_ok|].
    - eapply Permutation_NoDup; [symmetry; rewrite Hord; exact P|]. apply NoDup_app_intro'; [easy| |].
      + clear - Hn3. induction (map fst (m_segs m)) as [|x l IH]; [easy|]. cbn in Hn3. apply NoDup_cons_iff in Hn3. tauto.
      + intros n H1 H2. apply Hin, Hn2 in H1. apply F in H2. lia.
    - intros n Hn. unfold names. rewrite S', map_app. apply in_app_iff. apply Hmem in Hn as [Hn|Hn]; [left; now apply Hin|now right].
    - cbn [m_segs]. rewrite S', others_app.
      rewrite (others_none _ new), app_nil_r by (intros n Hn; apply Hmem; now right).
      unfold others. apply filter_ext_in. intros s Hin'. f_equal. apply Bool.eq_true_iff_eq. rewrite !existsb_eqb, Hmem. split; [|now left].
      intros [H|H]; [easy|]. apply F in H. specialize (Hn2 (fst s) (in_map fst _ _ Hin')). lia. }
  spl.
  - unfold copy_to_shm. rewrite E. cbn [bind]. now rewrite T1.
  - unfold open_from_shm. rewrite C51_map, T2, E''. exact U1.
  - intros p. now rewrite (T3 p), (U3 p).
  - now rewrite U2.
  - intros n Hn. unfold seg. rewrite S'. destruct (SharedMemory_proofs.lookup_some n (m_segs m) Hn) as (x & Hx). rewrite Hx. now apply lookup_app_l.
  - intros order Hord. apply Hfree. rewrite Hord, U2, Hown. reflexivity.
  - unfold unlink_shm. rewrite T2, unlink_leaves_free. now apply Hfree.
Qed.

(** An array travels by value exactly if it holds objects (whose addresses mean nothing to the receiver), is not
    contiguous, is empty or is smaller than the threshold. *)
Theorem C61_by_value {D V X} (np : numpy D V) min_size (m m' : memory V) (t t' : tree (leaf D V X)) i contiguous a :
  copy_to_shm np min_size m t = Ok (m', t') -> nth_error (flatten t) i = Some (LArray contiguous a) ->
  (nth_error (flatten t') i = Some (LArray contiguous a) <->
   np_hasobject np (a_dtype a) = true \/ contiguous = false \/ prod (a_shape a) = 0 \/ prod (a_shape a) * np_itemsize np (a_dtype a) < min_size).
Proof.
  intros E Hi. unfold copy_to_shm in E. apply bind_ok' in E as ([m1 ls] & E & E2). apply bind_ok' in E2 as (t1 & E2 & E3). injection E3 as -> ->.
  assert (Hlen : length ls = length (flatten t)).
  { clear - E. revert m m' ls E. induction (flatten t) as [|l q IH]; intros m m' ls E; cbn [copy_leaves] in E; [injection E as _ <-; easy|].
    apply bind_ok' in E as ([m1 l'] & E1 & E). apply bind_ok' in E as ([m2 ls'] & E2 & E). injection E as <- <-. cbn [length]. f_equal. exact (IH _ _ _ E2). }
  destruct (C51_unflatten_flatten t ls [] Hlen) as (t2 & T1 & T2 & _). rewrite app_nil_r, E2 in T1. injection T1 as <-. rewrite T2. clear - E Hi.
  revert m ls i E Hi. induction (flatten t) as [|l q IH]; intros m ls i E Hi; [now destruct i|]. cbn [copy_leaves] in E.
  apply bind_ok' in E as ([m1 l'] & E1 & E). apply bind_ok' in E as ([m2 ls'] & E2 & E). injection E as -> <-.
  destruct i as [|i]; cbn [nth_error] in *; [|eapply IH; eassumption]. injection Hi as ->. cbn [copy_leaf_to_shm] in E1.
  destruct (np_hasobject np (a_dtype a) || negb contiguous || (prod (a_shape a) =? 0) || (prod (a_shape a) * np_itemsize np (a_dtype a) <? min_size)) eqn:Eb.
  - injection E1 as _ <-. split; [intros _|easy]. rewrite !Bool.orb_true_iff in Eb. destruct Eb as [[[Eb|Eb]|Eb]|Eb]; auto; [|right; right; left; lia|right; right; right; lia].
    destruct contiguous; [discriminate|auto].
  - apply bind_ok' in E1 as ([m3 name] & _ & E1). injection E1 as _ <-. split; [discriminate|]. rewrite !Bool.orb_false_iff in Eb. destruct Eb as (((E1 & E3) & E4) & E5).
    intros [H|[->|[H|H]]]; [congruence|discriminate|lia|lia].
Qed.

(** A small numpy: 8-byte and 1-byte integers, floats, strings, objects; elements are integers.  An array of one element can be
    broadcast to every shape. *)
Inductive dtype := I8 | I64 | F64 | STR | OBJ.
Definition rank (d : dtype) : nat := match d with I8 => 0 | I64 => 1 | F64 => 2 | STR => 3 | OBJ => 4 end.
Definition promote (d d' : dtype) : dtype := if Nat.leb (rank d) (rank d') then d' else d.
Definition tiny : numpy dtype Z := {|
  np_itemsize := fun d => match d with I8 => 1 | _ => 8 end;
  np_hasobject := fun d => match d with OBJ => true | _ => false end;
  np_is_string := fun d => match d with STR => true | _ => false end;
  np_result := fun ds => match ds with [] => F64 | d :: ds => fold_left promote ds d end;
  np_same_kind := fun d d' => Nat.leb (rank d) (rank d') || match d, d' with I64, I8 => true | _, _ => false end;
  np_cast := fun d v => match d with I8 => (v + 128) mod 256 - 128 | _ => v end;
  np_broadcast := fun sh sh' data => if list_eq_dec Z.eq_dec sh sh' then Some data
                                     else match sh, data with [1], [v] => Some (repeat v (Z.to_nat (prod sh'))) | _, _ => None end |}.

(** A dict with a large array, a SharedMemoryArray, a small array, a text and an array of objects.  Two arrays travel in
    segments 7 (already there) and 9 (new). *)
Definition sent : tree (leaf dtype Z Z) :=
  Dict 0 [(1%nat, Leaf (LArray true (mkArray I64 [2; 2] [1; 2; 3; 4]))); (2%nat, Leaf (LShared 7 (mkArray I8 [2] [5; 6])));
          (3%nat, Seq 0 [Leaf (LArray true (mkArray I64 [1] [7])); Leaf (LOther 8); Leaf (LArray true (mkArray OBJ [4] [1; 1; 1; 1]))])].
Definition before : memory Z := mkMem 9 [(7%nat, [5; 6]); (8%nat, [0])].
Example C61_example :
  (forall d, 0 < np_itemsize tiny d) /\ sound before /\ Forall (user_leaf before) (flatten sent) /\ NoDup (owned (flatten sent)) /\
  exists m' t', copy_to_shm tiny 16 before sent = Ok (m', t') /\ metas (flatten t') = [9; 7]%nat /\ names m' = [7; 8; 9]%nat /\
    exists t'', open_from_shm m' t' = Ok t'' /\ owned (flatten t'') = [9; 7]%nat.
Proof.
  spl.
  - now intros [].
  - repeat constructor; cbn; intuition lia.
  - repeat constructor; cbn; try lia.
  - repeat constructor; cbn; easy.
  - do 2 eexists. split; [reflexivity|]. split; [reflexivity|]. split; [reflexivity|]. eexists. split; reflexivity.
Qed.

(** A view into a SharedMemoryArray keeps its segment but not its offset: the receiver of the second half of [5; 6; 7; 8] gets
    the first half. *)
Theorem C61_view_refuted : exists (m : memory Z) (t t' t'' : tree (leaf dtype Z Z)) m',
  seg m 0 = Some [5; 6; 7; 8] /\ t = Leaf (LShared 0 (mkArray I64 [2] [7; 8])) /\
  copy_to_shm tiny 0 m t = Ok (m', t') /\ open_from_shm m' t' = Ok t'' /\ t'' = Leaf (LShared 0 (mkArray I64 [2] [5; 6])).
Proof. exists (mkMem 1 [(0%nat, [5; 6; 7; 8])]). do 4 eexists. now spl. Qed.

(** A SharedMemoryArray that occurs twice in an element arrives twice, and its segment is freed twice. *)
Theorem C61_twice_refuted : exists (m m' : memory Z) (t t' t'' : tree (leaf dtype Z Z)),
  sound m /\ Forall (user_leaf m) (flatten t) /\ copy_to_shm tiny 0 m t = Ok (m', t') /\ open_from_shm m' t' = Ok t'' /\
  free m' (owned (flatten t'')) = Raise KeyError /\ unlink_shm m' t' = Raise KeyError.
Proof.
  exists (mkMem 1 [(0%nat, [5; 6])]).
  eexists. exists (Seq 0 [Leaf (LShared 0 (mkArray I64 [2] [5; 6])); Leaf (LShared 0 (mkArray I64 [2] [5; 6]))]). do 2 eexists.
  spl; try reflexivity; repeat constructor; cbn; try lia.
Qed.

(** ** C62 *)

(** Same element types in each column, or strings, or objects; no empty array unless of objects. *)
Definition uniform {D V} (np : numpy D V) (xs : list (array D V)) : Prop :=
  match xs with
  | [] => False
  | x :: _ =>
      np_hasobject np (a_dtype x) = true \/
      0 < prod (a_shape x) /\ (np_is_string np (a_dtype x) = true \/ Forall (fun y => a_dtype y = a_dtype x) xs)
  end.
(** What numpy guarantees: stacking arrays of one type gives this type; a type can be cast to itself; broadcasting to the
    same shape changes nothing. *)
Definition numpy_laws {D V} (np : numpy D V) : Prop :=
  (forall d, 0 < np_itemsize np d) /\ (forall d n, np_result np (repeat d (S n)) = d) /\ (forall d, np_same_kind np d d = true) /\
  (forall shape data, np_broadcast np shape shape data = Some data).

Lemma tiny_laws : numpy_laws tiny.
Proof.
  unfold numpy_laws. spl; try (now intros []).
  - intros d n. cbn [np_result tiny repeat]. induction n as [|n IH]; [easy|]. cbn [repeat fold_left]. replace (promote d d) with d; [easy|now destruct d].
  - intros sh data. cbn. now destruct (list_eq_dec Z.eq_dec sh sh).
Qed.

Lemma same_repeat {D V} (x : array D V) (xs : list (array D V)) : Forall (fun y => a_dtype y = a_dtype x) xs -> map a_dtype xs = repeat (a_dtype x) (length xs).
Proof. induction 1; cbn [map length repeat]; congruence. Qed.

Lemma stacked_whole {D V} (np : numpy D V) d (xs : list (array D V)) :
  xs <> [] -> Forall whole xs -> all_shape (first_shape xs) xs = true -> whole (stacked np d xs).
Proof.
  intros Hne Hw E. unfold whole, stacked. cbn [a_shape a_data prod fold_right]. fold (prod (first_shape xs)). rewrite map_length. split.
  - constructor; [lia|]. destruct xs as [|x xs]; [easy|]. apply Forall_cons_iff in Hw as ((Hx & _) & _). exact Hx.
  - clear Hne. set (sh := first_shape xs) in *. clearbody sh. induction xs as [|x xs IH]; [easy|].
    apply Forall_cons_iff in Hw as ((_ & Hx) & Hw). cbn [all_shape] in E. apply andb_true_iff in E as (E1 & E2).
    destruct (list_eq_dec Z.eq_dec (a_shape x) sh) as [Es|]; [|easy]. cbn [flat_map length]. rewrite app_length, Nat2Z.inj_add, IH, Hx, Es by easy. lia.
Qed.

Lemma create_sound {V} (m : memory V) data : sound m -> sound (fst (create m data)).
Proof.
  intros (Hnd & Hlt). unfold sound, names. cbn [create fst m_segs m_next]. rewrite map_app. cbn [map fst]. split.
  - apply (Permutation_NoDup (l := m_next m :: map fst (m_segs m))); [apply Permutation_cons_append|]. constructor; [|easy].
    intros Hin. rewrite Forall_forall in Hlt. specialize (Hlt _ Hin). lia.
  - apply Forall_app. split; [eapply Forall_impl; [|exact Hlt]; cbn; intros; lia|]. repeat constructor.
Qed.
Lemma create_seg {V} (m : memory V) data : sound m -> seg (fst (create m data)) (m_next m) = Some data.
Proof.
  intros (_ & Hlt). unfold seg. cbn [create fst m_segs]. rewrite lookup_app_r; [unfold lookup; cbn [find fst]; now rewrite Nat.eqb_refl|].
  intros Hin. rewrite Forall_forall in Hlt. specialize (Hlt _ Hin). lia.
Qed.

(** What a stacking function into shared memory must do to agree with np.stack. *)
Definition agrees {D V X} (np : numpy D V) (m : memory V) (xs : list (array D V)) (r : memory V * res (leaf D V X)) : Prop :=
  match np_stack np xs with
  | Ok a => exists new l, snd r = Ok l /\ sound (fst r) /\ m_segs (fst r) = m_segs m ++ new /\ map fst new = owned [l] /\
              same_leaf (LArray true a) l /\ user_leaf (fst r) l
  | Raise e => snd r = Raise e
  | OutOfFuel => False
  end.
Lemma agrees_plain {D V X} (np : numpy D V) m xs : xs <> [] -> Forall whole xs -> sound m ->
  agrees (X := X) np m xs (m, let! a := np_stack np xs in Ok (LArray true a)).
Proof.
  intros Hne Hw Hs. unfold agrees. destruct (np_stack np xs) as [a| |] eqn:E; cbn [fst snd bind]; [|easy|].
  - exists [], (LArray true a). rewrite app_nil_r. spl; try easy. cbn [user_leaf]. unfold np_stack in E. destruct (all_shape _ _) eqn:E'; [|easy].
    injection E as <-. now apply stacked_whole.
  - unfold np_stack in E. now destruct (all_shape _ _).
Qed.
Lemma agrees_new {D V X} (np : numpy D V) m xs (a : array D V) : xs <> [] -> Forall whole xs -> sound m -> np_stack np xs = Ok a ->
  agrees (X := X) np m xs (let (m', name) := create m (a_data a) in (m', Ok (LShared name a))).
Proof.
  intros Hne Hw Hs E. unfold agrees. rewrite E. pose proof (create_sound m (a_data a) Hs) as H1. pose proof (create_seg m (a_data a) Hs) as H2.
  unfold create in *. cbn [fst snd] in *. exists [(m_next m, a_data a)], (LShared (m_next m) a). cbn [user_leaf]. spl; try easy.
  unfold np_stack in E. destruct (all_shape _ _) eqn:E'; [|easy]. injection E as <-. now apply stacked_whole.
Qed.

Lemma shm_stack_agrees {D V X} (np : numpy D V) m xs : numpy_laws np -> sound m -> Forall whole xs -> uniform np xs ->
  agrees (X := X) np m xs (shm_stack_leaf np m xs).
Proof.
  intros (Hi & Hr & Hk & _) Hs Hw Hu. destruct xs as [|x xs]; [easy|]. unfold shm_stack_leaf. set (l := x :: xs) in *.
  assert (Hne : l <> []) by easy. cbn [uniform] in Hu.
  destruct (np_hasobject np (a_dtype x)) eqn:Eo; [now apply agrees_plain|]. destruct Hu as [?|(Hp & Hu)]; [congruence|].
  destruct (np_is_string np (a_dtype x)) eqn:Est.
  - destruct (np_stack np l) as [a| |] eqn:E; [|unfold agrees; now rewrite E|unfold np_stack in E; now destruct (all_shape _ _)].
    unfold new_shared. replace (_ <=? 0) with false; [now apply agrees_new|]. symmetry. apply Z.leb_gt.
    unfold np_stack in E. destruct (all_shape _ _) eqn:E'; [|easy]. injection E as <-. cbn [a_shape a_dtype stacked prod fold_right first_shape l].
    fold (prod (a_shape x)). specialize (Hi (np_result np (map a_dtype (x :: xs)))). subst l. cbn [length first_shape]. apply Z.mul_pos_pos; [apply Z.mul_pos_pos; [lia|exact Hp]|easy].
  - destruct Hu as [?|Hu]; [congruence|]. cbv zeta. replace (_ <=? 0) with false.
    2: { symmetry. apply Z.leb_gt. cbn [prod fold_right]. fold (prod (a_shape x)). specialize (Hi (a_dtype x)). unfold l. cbn [length]. apply Z.mul_pos_pos; [apply Z.mul_pos_pos; lia|easy]. }
    unfold np_stack_out. destruct (all_shape (first_shape l) l) eqn:E; cbn [negb].
    + replace (forallb _ l) with true.
      2: { symmetry. apply forallb_forall. intros y Hy. rewrite Forall_forall in Hu. rewrite (Hu y Hy). apply Hk. }
      apply agrees_new; try easy. unfold np_stack. rewrite E. f_equal. f_equal. rewrite (same_repeat x l Hu). unfold l. cbn [length]. apply Hr.
    + unfold agrees, np_stack. now rewrite E.
Qed.

Lemma batch_leaves_agrees {D V X C} (np : numpy D V) (stack : memory V -> C -> memory V * res (leaf D V X)) (col : C -> list (array D V)) columns :
  forall m, sound m -> (forall m c, sound m -> In c columns -> agrees np m (col c) (stack m c)) ->
  match snd (make_batch (X := X) np false m (map col columns)) with
  | Ok ls => exists m' ls' new, batch_leaves stack m columns = (m', Ok ls') /\ Forall2 same_leaf ls ls' /\
      m_segs m' = m_segs m ++ new /\ map fst new = owned ls' /\ sound m' /\ Forall (user_leaf m') ls'
  | Raise e => exists m', batch_leaves stack m columns = (m', Raise e)
  | OutOfFuel => False
  end.
Proof.
  induction columns as [|c columns IH]; intros m Hs H.
  - cbn. exists m, [], []. rewrite app_nil_r. now spl.
  - pose proof (H m c Hs (or_introl eq_refl)) as Hx. unfold make_batch. cbn [batch_leaves map]. unfold stack_leaf at 1. unfold agrees in Hx.
    destruct (np_stack np (col c)) as [a|e|]; cbn [bind]; [|destruct (stack m c) as (m1, r); cbn [snd] in Hx; subst r; now exists m1|easy].
    destruct Hx as (new & l & E1 & Hs1 & S1 & N1 & L1 & U1). destruct (stack m c) as (m1, r) eqn:E. cbn [fst snd] in *. subst r.
    specialize (IH m1 Hs1 (fun m xs Hm Hin => H m xs Hm (or_intror Hin))).
    assert (Em : snd (make_batch (X := X) np false m (map col columns)) = snd (make_batch (X := X) np false m1 (map col columns))).
    { unfold make_batch. clear. revert m m1. induction (map col columns) as [|ys cs IH]; intros m m1; [easy|]. cbn [batch_leaves]. unfold stack_leaf at 1 3.
      destruct (np_stack np ys); cbn [bind]; try easy. specialize (IH m m1).
      destruct (batch_leaves (stack_leaf np) m cs), (batch_leaves (stack_leaf np) m1 cs). cbn [snd] in *. now subst. }
    unfold make_batch in Em, IH. rewrite <- Em in IH. destruct (batch_leaves (stack_leaf np) m (map col columns)) as (mm & r0). cbn [snd] in *.
    destruct r0 as [ls|e|]; cbn [bind]; [|destruct IH as (m' & IH); rewrite IH; now exists m'|easy].
    destruct IH as (m' & ls' & new' & E2 & F2 & S2 & N2 & Hs2 & U2). rewrite E2. cbn [bind].
    exists m', (l :: ls'), (new ++ new'). spl; auto.
    + now rewrite S2, S1, app_assoc.
    + rewrite map_app, N1, N2. unfold owned. now rewrite <- flat_map_app.
    + constructor; [|easy]. destruct l as [|n b| |]; cbn [user_leaf] in *; try easy. destruct U1 as (Hw & Hseg). split; [easy|].
      unfold seg in *. rewrite S2. now apply lookup_app_l.
Qed.

(** Batching into shared memory gives what batching in the process gives: the same arrays, or the same exception.  Each new
    segment belongs to exactly one array of the batch, and the batch can be sent (C61). *)
Theorem C62_batch {D V X} (np : numpy D V) (m : memory V) columns :
  numpy_laws np -> sound m -> Forall (Forall whole) columns -> Forall (uniform np) columns ->
  match snd (make_batch (X := X) np false m columns) with
  | Ok ls => exists m' ls' new, make_batch np true m columns = (m', Ok ls') /\ Forall2 same_leaf ls ls' /\
      m_segs m' = m_segs m ++ new /\ map fst new = owned ls' /\ sound m' /\ Forall (user_leaf m') ls'
  | Raise e => exists m', make_batch (X := X) np true m columns = (m', Raise e)
  | OutOfFuel => False
  end.
Proof.
  intros Hl Hs Hw Hu. 
  pose proof (batch_leaves_agrees (X := X) np (shm_stack_leaf np) (fun c => c) columns m Hs) as H. rewrite map_id in H. apply H.
  intros m1 xs Hs1 Hin. rewrite Forall_forall in Hw, Hu. apply shm_stack_agrees; auto.
Qed.

(** An array of integers, an array of strings and one of objects; the two batches differ only in where the arrays are. *)
Example C62_example : let columns := [[mkArray I64 [2] [1; 2]; mkArray I64 [2] [3; 4]]; [mkArray STR [1] [5]; mkArray STR [1] [6]];
                                      [mkArray OBJ [] [7]; mkArray I64 [] [8]]] in
  Forall (Forall whole) columns /\ Forall (uniform tiny) columns /\
  make_batch (X := Z) tiny false before columns =
    (before, Ok [LArray true (mkArray I64 [2; 2] [1; 2; 3; 4]); LArray true (mkArray STR [2; 1] [5; 6]); LArray true (mkArray OBJ [2] [7; 8])]) /\
  snd (make_batch (X := Z) tiny true before columns) =
    Ok [LShared 9 (mkArray I64 [2; 2] [1; 2; 3; 4]); LShared 10 (mkArray STR [2; 1] [5; 6]); LArray true (mkArray OBJ [2] [7; 8])].
Proof.
  cbv zeta. spl; try reflexivity.
  - repeat constructor; cbn; lia.
  - apply Forall_cons; [|apply Forall_cons; [|apply Forall_cons; [|constructor]]]; cbn; [right|right|now left]; (split; [lia|]); [right|now left]; repeat constructor.
Qed.

(** Without the conditions of C62_batch a worker process gives another batch, or none.  int8 followed by int64: the number 300
    becomes 44. *)
Theorem C62_dtype_refuted : let columns := [[mkArray I8 [1] [1]; mkArray I64 [1] [300]]] in
  snd (make_batch (X := Z) tiny false before columns) = Ok [LArray true (mkArray I64 [2; 1] [1; 300])] /\
  snd (make_batch (X := Z) tiny true before columns) = Ok [LShared 9 (mkArray I8 [2; 1] [1; 44])].
Proof. now split. Qed.
(** Integers followed by floats: TypeError in the worker only. *)
Theorem C62_kind_refuted : let columns := [[mkArray I64 [1] [1]; mkArray F64 [1] [2]]] in
  snd (make_batch (X := Z) tiny false before columns) = Ok [LArray true (mkArray F64 [2; 1] [1; 2])] /\
  snd (make_batch (X := Z) tiny true before columns) = Raise TypeError.
Proof. now split. Qed.
(** Empty arrays: ValueError in the worker only. *)
Theorem C62_empty_refuted : let columns := [[mkArray I64 [0] []; mkArray I64 [0] []]] in
  snd (make_batch (X := Z) tiny false before columns) = Ok [LArray true (mkArray I64 [2; 0] [])] /\
  snd (make_batch (X := Z) tiny true before columns) = Raise ValueError.
Proof. now split. Qed.
(** Arrays of different shapes: ValueError in both, and the worker leaves a segment that no array owns.  The same happens to the
    arrays of earlier leaves. *)
Theorem C62_leak_refuted : let columns := [[mkArray I64 [1] [1]; mkArray I64 [1] [2]]; [mkArray I64 [1] [1]; mkArray I64 [2] [2; 3]]] in
  let r := make_batch (X := Z) tiny true before columns in snd r = Raise ValueError /\ names (fst r) = [7; 8; 9; 10]%nat.
Proof. now split. Qed.

(** ** The thread pool *)

(** Arrays of one shape and of one type (or strings). *)
Definition regular {D V} (np : numpy D V) (xs : list (array D V)) : Prop :=
  match xs with
  | [] => False
  | x :: _ => Forall (fun y => a_shape y = a_shape x) xs /\ (np_is_string np (a_dtype x) = true \/ Forall (fun y => a_dtype y = a_dtype x) xs)
  end.

Lemma rows_after {D V} (np : numpy D V) d shape xs order : numpy_laws np -> Forall (fun y : array D V => a_shape y = shape) xs ->
  forall rows j x, nth_error xs j = Some x ->
  fold_left (setitem np d shape xs) order rows j = if existsb (Nat.eqb j) order then Some (map (np_cast np d) (a_data x)) else rows j.
Proof.
  intros (_ & _ & _ & Hb) Hsh. induction order as [|i order IH]; intros rows j x Hj; [easy|]. cbn [fold_left existsb]. rewrite (IH _ j x Hj).
  destruct (existsb (Nat.eqb j) order); [now rewrite orb_true_r|]. rewrite orb_false_r. unfold setitem.
  destruct (nth_error xs i) as [y|] eqn:Ei.
  - rewrite Forall_forall in Hsh. rewrite (Hsh y (nth_error_In _ _ Ei)), Hb. destruct (Nat.eqb_spec j i) as [->|]; [|easy]. congruence.
  - destruct (Nat.eqb_spec j i) as [->|]; [congruence|easy].
Qed.
Lemma map_seq_nth {A B} (f : nat -> B) (g : A -> B) : forall xs k, (forall j x, nth_error xs j = Some x -> f (k + j)%nat = g x) -> map f (seq k (length xs)) = map g xs.
Proof.
  induction xs as [|x xs IH]; intros k H; [easy|]. cbn [length seq map]. f_equal.
  - specialize (H 0%nat x eq_refl). now rewrite Nat.add_0_r in H.
  - apply IH. intros j y Hj. rewrite <- (H (S j) y Hj). f_equal. lia.
Qed.
Lemma parallel_rows_ok {D V} (np : numpy D V) d shape (xs : list (array D V)) order : numpy_laws np -> Forall (fun y => a_shape y = shape) xs ->
  Permutation order (seq 0 (length xs)) -> parallel_rows np order d shape xs = Ok (map (np_cast np d) (flat_map a_data xs)).
Proof.
  intros Hl Hsh Hp. unfold parallel_rows. replace (forallb _ xs) with true.
  2: { symmetry. apply forallb_forall. intros y Hy. rewrite Forall_forall in Hsh. rewrite (Hsh y Hy). destruct Hl as (_ & _ & _ & Hb). now rewrite Hb. }
  rewrite (map_seq_nth _ (fun x => Some (map (np_cast np d) (a_data x))) xs 0).
  - assert (E : written (map (fun x => Some (map (np_cast np d) (a_data x))) xs) = Some (map (np_cast np d) (flat_map a_data xs))); [|now rewrite E].
    clear. induction xs as [|x xs IH]; [easy|]. cbn [map written flat_map]. rewrite IH. cbn. now rewrite map_app.
  - intros j x Hj. cbn [Nat.add]. rewrite (rows_after np d shape xs order Hl Hsh _ j x Hj). replace (existsb _ order) with true; [easy|].
    symmetry. apply existsb_eqb. apply (Permutation_in j (Permutation_sym Hp)). apply in_seq. split; [lia|]. apply nth_error_Some. congruence.
Qed.

Lemma one_shape {D V} (xs : list (array D V)) sh : Forall (fun y => a_shape y = sh) xs -> all_shape sh xs = true.
Proof. induction 1 as [|x xs Hx H IH]; [easy|]. cbn [all_shape]. rewrite IH. now destruct (list_eq_dec Z.eq_dec (a_shape x) sh). Qed.

Lemma parallel_agrees {D V X} (np : numpy D V) threshold order shm m xs : numpy_laws np -> sound m -> Forall whole xs ->
  regular np xs -> (shm = true -> uniform np xs) -> Permutation order (seq 0 (length xs)) ->
  agrees (X := X) np m xs (parallel_leaf np threshold order shm m xs).
Proof.
  intros Hl Hs Hw Hr Hu Hp. destruct xs as [|x xs]; [easy|]. unfold parallel_leaf. set (l := x :: xs) in *. assert (Hne : l <> []) by easy.
  assert (Hstack : agrees (X := X) np m l ((if shm then shm_stack_leaf np else stack_leaf np) m l)).
  { destruct shm; [apply shm_stack_agrees; auto|now apply agrees_plain]. }
  destruct (np_is_string np (a_dtype x)) eqn:Est; [easy|]. destruct (_ <? threshold); [easy|].
  cbn [regular] in Hr. destruct Hr as (Hsh & [?|Ht]); [congruence|]. cbv zeta.
  rewrite (parallel_rows_ok np (a_dtype x) (a_shape x) l order Hl Hsh Hp). cbn [bind].
  assert (E : np_stack np l = Ok (mkArray (a_dtype x) (Z.of_nat (length l) :: a_shape x) (map (np_cast np (a_dtype x)) (flat_map a_data l)))).
  { unfold np_stack. change (first_shape l) with (a_shape x). rewrite (one_shape l (a_shape x) Hsh). f_equal. unfold stacked. change (first_shape l) with (a_shape x).
    replace (np_result np (map a_dtype l)) with (a_dtype x); [easy|]. rewrite (same_repeat x l Ht). destruct Hl as (_ & Hr & _). unfold l. cbn [length]. now rewrite Hr. }
  destruct (negb shm || np_hasobject np (a_dtype x)) eqn:Eo.
  - pose proof (agrees_plain (X := X) np m l Hne Hw Hs) as H. now rewrite E in H.
  - apply orb_false_elim in Eo as (Eo1 & Eo2). destruct shm; [|easy]. specialize (Hu eq_refl). cbn [uniform l] in Hu.
    destruct Hu as [?|(Hpos & _)]; [congruence|]. replace (_ <=? 0) with false; [exact (agrees_new np m l _ Hne Hw Hs E)|].
    symmetry. apply Z.leb_gt. destruct Hl as (Hi & _). cbn [prod fold_right]. fold (prod (a_shape x)). subst l. cbn [length].
    apply Z.mul_pos_pos; [apply Z.mul_pos_pos; lia|easy].
Qed.

(** In whatever order the pool runs the copies, the batch is the one np.stack makes. *)
Theorem C62_parallel {D V X} (np : numpy D V) threshold shm (m : memory V) columns :
  numpy_laws np -> sound m ->
  Forall (fun column => Permutation (fst column) (seq 0 (length (snd column))) /\ Forall whole (snd column) /\ regular np (snd column) /\
                        (shm = true -> uniform np (snd column))) columns ->
  match snd (make_batch (X := X) np false m (map snd columns)) with
  | Ok ls => exists m' ls' new, make_batch_parallel np threshold shm m columns = (m', Ok ls') /\ Forall2 same_leaf ls ls' /\
      m_segs m' = m_segs m ++ new /\ map fst new = owned ls' /\ sound m' /\ Forall (user_leaf m') ls'
  | Raise e => exists m', make_batch_parallel (X := X) np threshold shm m columns = (m', Raise e)
  | OutOfFuel => False
  end.
Proof.
  intros Hl Hs HF. apply (batch_leaves_agrees np _ snd); [easy|]. intros m1 c Hs1 Hin. rewrite Forall_forall in HF.
  destruct (HF c Hin) as (H1 & H2 & H3 & H4). now apply parallel_agrees.
Qed.
Example C62_parallel_example : let xs := [mkArray I64 [2] [1; 2]; mkArray I64 [2] [3; 4]; mkArray I64 [2] [5; 6]] in
  Permutation [2; 0; 1]%nat (seq 0 (length xs)) /\ Forall whole xs /\ regular tiny xs /\ uniform tiny xs /\
  snd (make_batch_parallel (X := Z) tiny 40 true before [([2; 0; 1]%nat, xs)]) = Ok [LShared 9 (mkArray I64 [3; 2] [1; 2; 3; 4; 5; 6])].
Proof.
  cbv zeta. spl; try reflexivity.
  - cbn. apply (Permutation_cons_app [0; 1]%nat []). rewrite app_nil_r. reflexivity.
  - repeat constructor; cbn; lia.
  - split; [|right]; repeat constructor.
  - right. split; [cbn; lia|]. right. repeat constructor.
Qed.
(** Arrays of objects are batched by value, whether in parallel or not. *)
Theorem C62_objects {D V X} (np : numpy D V) threshold shm (m m' : memory V) columns ls i order x xs l :
  make_batch (X := X) np shm m (map snd columns) = (m', Ok ls) \/ make_batch_parallel (X := X) np threshold shm m columns = (m', Ok ls) ->
  nth_error columns i = Some (order, x :: xs) -> nth_error ls i = Some l ->
  np_is_string np (a_dtype x) = false -> np_hasobject np (a_dtype x) = true -> exists a, l = LArray true a.
Proof.
  intros H Hi Hl Hstr Hobj.
  assert (G : forall C (stack : memory V -> C -> memory V * res (leaf D V X)) (columns : list C) c,
    (forall m m' l, stack m c = (m', Ok l) -> exists a, l = LArray true a) -> nth_error columns i = Some c ->
    forall m ls, batch_leaves stack m columns = (m', Ok ls) -> nth_error ls i = Some l -> exists a, l = LArray true a).
  { clear. intros C stack columns c Hc. revert i. induction columns as [|c' columns IH]; intros i Hi m ls E Hl; [now destruct i|].
    cbn [batch_leaves] in E. destruct (stack m c') as [m1 [l'| |]] eqn:Es; try discriminate.
    destruct (batch_leaves stack m1 columns) as [m2 r] eqn:Eb. injection E as -> E. apply bind_ok' in E as (ls' & -> & E). injection E as <-.
    destruct i as [|i]; cbn [nth_error] in *; [injection Hi as ->; injection Hl as ->; eauto|eauto]. }
  assert (Hst : forall m m' l, stack_leaf (X := X) np m (x :: xs) = (m', Ok l) -> exists a, l = LArray true a).
  { intros m0 m1 l0 E. unfold stack_leaf in E. injection E as _ E. apply bind_ok' in E as (a & _ & E). injection E as <-. eauto. }
  assert (Hsh : forall m m' l, shm_stack_leaf (X := X) np m (x :: xs) = (m', Ok l) -> exists a, l = LArray true a).
  { intros m0 m1 l0 E. cbn [shm_stack_leaf] in E. rewrite Hobj in E. injection E as _ E. apply bind_ok' in E as (a & _ & E). injection E as <-. eauto. }
  destruct H as [H|H].
  - unfold make_batch in H. refine (G _ _ _ (x :: xs) _ _ m ls H Hl); [destruct shm; auto|].
    rewrite (map_nth_error snd i columns Hi). reflexivity.
  - refine (G _ _ _ (order, x :: xs) _ Hi m ls H Hl).
    intros m0 m1 l0 E. cbn [fst snd parallel_leaf] in E. rewrite Hstr in E. destruct (_ <? threshold); [destruct shm; eauto|].
    rewrite Hobj, Bool.orb_true_r in E. injection E as _ E. apply bind_ok' in E as (a & _ & E). injection E as <-. eauto.
Qed.
Example C62_objects_example : let xs := [mkArray OBJ [1] [5]; mkArray OBJ [1] [6]] in
  make_batch_parallel (X := Z) tiny 4 true before [([1; 0]%nat, xs)] = (before, Ok [LArray true (mkArray OBJ [2; 1] [5; 6])]) /\
  np_is_string tiny OBJ = false /\ np_hasobject tiny OBJ = true.
Proof. now spl. Qed.

(** Copying converts and broadcasts where np.stack promotes or refuses: 300 as int64 after an int8, and a single number
    where the first value has two, give a batch without any error. *)
Theorem C62_parallel_refuted : let xs := [mkArray I8 [2] [1; 2]; mkArray I64 [1] [300]] in
  snd (make_batch (X := Z) tiny false before [xs]) = Raise ValueError /\
  snd (make_batch_parallel (X := Z) tiny 4 false before [([0; 1]%nat, xs)]) = Ok [LArray true (mkArray I8 [2; 2] [1; 2; 44; 44])].
Proof. now split. Qed.
