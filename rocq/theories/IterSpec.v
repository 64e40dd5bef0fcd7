(** Specification of what a checkpointable iterator must do, independent of any
    particular transformation: a cursor into the list of elements of the stream. *)
From Verif Require Import Base MapDatasets Spec Iter.

(** What a user may do with an iterator over its lifetime: read the next element,
    take a checkpoint, restore the [k]-th checkpoint taken so far (directly, or
    after a round trip through JSON), or throw the process away and construct the
    iterator again (checkpoints survive). *)
Inductive op : Type :=
| ONext
| OSave
| OLoad (k : nat) (json : bool)
| ORestart.

(** What the user observes. *)
Inductive obs (A : Type) : Type :=
| Got (o : out A)           (* result of next() *)
| Saved
| Loaded
| NoSuchCheckpoint
| LoadFailed
| Restarted.
Arguments Got {A}. Arguments Saved {A}. Arguments Loaded {A}.
Arguments NoSuchCheckpoint {A}. Arguments LoadFailed {A}. Arguments Restarted {A}.

(** The history run on the modelled iterator. *)
Fixpoint run {A} (it : Iter A) (fuel : nat) (ops : list op) (s : ist it) (cks : list (ick it))
  : list (obs A) :=
  match ops with
  | [] => []
  | ONext :: ops' => let (o, s') := next it fuel s in Got o :: run it fuel ops' s' cks
  | OSave :: ops' => Saved :: run it fuel ops' s (cks ++ [get_state it s])
  | OLoad k json :: ops' =>
      match nth_error cks k with
      | None => NoSuchCheckpoint :: run it fuel ops' s cks
      | Some c =>
          match set_state it fuel s (if json then jsonck it c else c) with
          | Ok s' => Loaded :: run it fuel ops' s' cks
          | _ => LoadFailed :: run it fuel ops' s cks
          end
      end
  | ORestart :: ops' => Restarted :: run it fuel ops' (init it) cks
  end.

(** The same history on a cursor into the list [l] of elements: [p] is the number
    of elements read, [ps] the positions of the checkpoints. *)
Fixpoint cursor {A} (l : list A) (ops : list op) (p : nat) (ps : list nat) : list (obs A) :=
  match ops with
  | [] => []
  | ONext :: ops' =>
      match nth_error l p with
      | Some a => Got (Yield a) :: cursor l ops' (S p) ps
      | None => Got Stop :: cursor l ops' p ps
      end
  | OSave :: ops' => Saved :: cursor l ops' p (ps ++ [p])
  | OLoad k _ :: ops' =>
      match nth_error ps k with
      | None => NoSuchCheckpoint :: cursor l ops' p ps
      | Some q => Loaded :: cursor l ops' q ps
      end
  | ORestart :: ops' => Restarted :: cursor l ops' 0 ps
  end.

(** Histories in which checkpoints are only restored into an iterator that has
    just been constructed ([fresh] says it has been at the start). *)
Fixpoint fresh_loads (fresh : bool) (ops : list op) : bool :=
  match ops with
  | [] => true
  | ONext :: ops' => fresh_loads false ops'
  | OSave :: ops' => fresh_loads fresh ops'
  | OLoad _ _ :: ops' => fresh && fresh_loads false ops'
  | ORestart :: ops' => fresh_loads true ops'
  end.
(** Histories in which checkpoints are not passed through JSON. *)
Definition no_json (ops : list op) : bool :=
  forallb (fun o => match o with OLoad _ true => false | _ => true end) ops.

(** [it] behaves like a cursor into [l] for all histories: the outputs of every
    history are those of the cursor.  [fin = true]: the stream ends after [l];
    [fin = false]: [l] is only a prefix of the stream, and the claim is made for
    histories that cannot leave it.  [used = false] restricts to histories that
    restore into freshly constructed iterators, [json = false] to histories
    without JSON round trips. *)
Definition checkpointable {A} (it : Iter A) (l : list A) (fin used json : bool) : Prop :=
  exists N, forall fuel ops, (N <= fuel)%nat ->
    (fin = false -> (length ops <= length l)%nat) ->
    (used = false -> fresh_loads true ops = true) ->
    (json = false -> no_json ops = true) ->
    run it fuel ops (init it) [] = cursor l ops 0 [].

(** Reading a fresh iterator to the end: the elements of the stream. *)
Fixpoint drain {A} (it : Iter A) (fuel n : nat) (s : ist it) : list A * out A :=
  match n with
  | O => ([], NoFuel)
  | S n' =>
      match next it fuel s with
      | (Yield a, s') => let (l, o) := drain it fuel n' s' in (a :: l, o)
      | (o, _) => ([], o)
      end
  end.
(** [list(it)] returns [l]. *)
Definition elements {A} (it : Iter A) (l : list A) : Prop :=
  exists N, forall fuel, (N <= fuel)%nat -> drain it fuel (S (length l)) (init it) = (l, Stop).
(** The first elements read are [l] (nothing is said about what follows). *)
Definition elements_prefix {A} (it : Iter A) (l : list A) : Prop :=
  exists N, forall fuel, (N <= fuel)%nat -> drain it fuel (length l) (init it) = (l, NoFuel).

(** [too_many thr g w]: the fraction of the elements of [w] that do not satisfy [g]
    is at least the threshold [thr] = num/den (None and 0 switch the check off). *)
Definition too_many {A} (thr : option (Z * Z)) (g : A -> bool) (w : list A) : Prop :=
  exists num den, thr = Some (num, den) /\ num <> 0 /\
    Z.of_nat (List.length (filter (fun a => negb (g a)) w)) * den >= num * Z.of_nat (List.length w).
(** The [m]-th group of [k] consecutive elements. *)
Definition nth_window {A} (k : nat) (l : list A) (m : nat) : list A := firstn k (skipn (m * k) l).

(** [it] after [n] calls of next(), whatever they returned. *)
Fixpoint after {A} (it : Iter A) (fuel n : nat) (s : ist it) : ist it :=
  match n with O => s | S n' => after it fuel n' (snd (next it fuel s)) end.

(** [p] with a budget of [B] calls of next(): every further call raises.  (To say
    that an iterator reads its parent at most [B] times.) *)
Definition budget {A} (B : nat) (p : Iter A) : Iter A :=
  {| ist := ist p * nat; ick := ick p; init := (init p, O);
     next := fun fuel '(s, n) =>
       if Nat.ltb n B then let (o, s') := next p fuel s in (o, (s', S n)) else (Fail UserError, (s, n));
     get_state := fun '(s, _) => get_state p s;
     set_state := fun fuel '(s, n) c => let! s' := set_state p fuel s c in Ok (s', n);
     jsonck := jsonck p |}.

(** Batches as lists of leaves, a leaf as the list of its rows.  All rows of leaf [m]
    over the batches [l]: *)
Definition leaf_rows {X} (m : nat) (l : list (leaves X)) : list X := concat (map (fun e => nth m e []) l).
(** A well-formed input: every batch has [k] leaves, all with the same positive number of rows. *)
Definition rows_of {X} (e : leaves X) : nat := length (nth 0 e []).
Definition regular {X} (k : nat) (e : leaves X) : Prop :=
  length e = k /\ (1 <= rows_of e)%nat /\ Forall (fun x => length x = rows_of e) e.
(** The number of rows of all batches. *)
Definition total_rows {X} (l : list (leaves X)) : nat := list_sum (map rows_of l).
(** [out] regroups the [k] leaves of the batches [l] into batches of [b] rows; rows
    that do not fill a batch form a shorter last one, or are dropped. *)
Definition rebatched {X} (k b : nat) (drop : bool) (l out : list (leaves X)) : Prop :=
  Forall (fun e => List.length e = k) out /\
  forall m, (m < k)%nat -> map (fun e => nth m e []) out =
    if drop then full_chunks b (leaf_rows m l) else chunks b (leaf_rows m l).

(** The rows of the zip of some lists: as many as the shortest has elements. *)
Fixpoint zip_lists {A} (ls : list (list A)) : list (list A) :=
  match ls with
  | [] => []
  | [l] => map (fun a => [a]) l
  | l :: ls' => map (fun ar => fst ar :: snd ar) (combine l (zip_lists ls'))
  end.

(** [out] reads from the lists [ls] the elements selected by the proportions: the
    selection of step [i] is [dataset_and_key i] (see C11-C13 for what it is). *)
Definition mixture {A} (props : list Z) (ls : list (list A)) (out : list A) : Prop :=
  forall i a, nth_error out i = Some a -> exists d key,
    dataset_and_key (Z.of_nat i) props = Ok (Z.of_nat d, Z.of_nat key) /\
    nth_error (nth d ls []) key = Some a.
(** The element selected after [out] does not exist. *)
Definition mixture_ends {A} (props : list Z) (ls : list (list A)) (out : list A) : Prop :=
  exists d key, dataset_and_key (Z.of_nat (List.length out)) props = Ok (Z.of_nat d, Z.of_nat key) /\
    nth_error (nth d ls []) key = None.
(** No parent is used up by the selections of [out]. *)
Definition mixture_within {A} (props : list Z) (ls : list (list A)) (out : list A) : Prop :=
  forall i d key, (i < List.length out)%nat -> dataset_and_key (Z.of_nat i) props = Ok (Z.of_nat d, Z.of_nat key) ->
    (S key < List.length (nth d ls []))%nat.

(** Positions from which the behaviour of the stream is known. *)
Definition live {A} (l : list A) (fin : bool) (p : nat) : Prop :=
  (p < length l)%nat \/ (p = length l /\ fin = true).

(** The contract between iterators: [rep s p] says that in state [s] the first [p]
    elements have been read, [crep c p] that the checkpoint [c] was taken there.
    Every parent of a transformation is assumed to satisfy it, and every
    transformation is proved to satisfy it again.  [law_start]: the checkpoint of
    the fresh iterator can be restored at any time (what repeat relies on).
    [N] is enough fuel. *)
Record Law {A} (it : Iter A) (l : list A) (fin used json : bool) (N : nat)
    (rep : ist it -> nat -> Prop) (crep : ick it -> nat -> Prop) : Prop := {
  law_init : rep (init it) 0%nat;
  law_le : forall s p, rep s p -> (p <= length l)%nat;
  law_next : forall fuel s p a, (N <= fuel)%nat -> rep s p -> nth_error l p = Some a ->
    exists s', next it fuel s = (Yield a, s') /\ rep s' (S p);
  law_stop : forall fuel s, (N <= fuel)%nat -> fin = true -> rep s (length l) ->
    exists s', next it fuel s = (Stop, s') /\ rep s' (length l);
  law_get : forall s p, rep s p -> crep (get_state it s) p;
  law_json : forall c p, json = true -> crep c p -> crep (jsonck it c) p;
  law_start : forall fuel s p, (N <= fuel)%nat -> rep s p -> live l fin 0 ->
    exists s', set_state it fuel s (get_state it (init it)) = Ok s' /\ rep s' 0%nat;
  law_fresh : forall fuel c p, (N <= fuel)%nat -> crep c p -> live l fin p ->
    exists s', set_state it fuel (init it) c = Ok s' /\ rep s' p;
  law_used : forall fuel s q c p, (N <= fuel)%nat -> used = true -> rep s q -> crep c p -> live l fin p ->
    exists s', set_state it fuel s c = Ok s' /\ rep s' p;
}.
Arguments law_init {_ _ _ _ _ _ _ _ _}. Arguments law_le {_ _ _ _ _ _ _ _ _}.
Arguments law_next {_ _ _ _ _ _ _ _ _}. Arguments law_stop {_ _ _ _ _ _ _ _ _}.
Arguments law_get {_ _ _ _ _ _ _ _ _}. Arguments law_json {_ _ _ _ _ _ _ _ _}.
Arguments law_start {_ _ _ _ _ _ _ _ _}. Arguments law_fresh {_ _ _ _ _ _ _ _ _}.
Arguments law_used {_ _ _ _ _ _ _ _ _}.

(** The contract of iterators that may not be restartable: checkpoints are only restored into new iterators (or, if [used],
    into any), and the checkpoint of a new iterator is a checkpoint like the others. *)
Record NewLaw {A} (it : Iter A) (l : list A) (fin used json : bool) (N : nat)
    (rep : ist it -> nat -> Prop) (crep : ick it -> nat -> Prop) : Prop := {
  new_init : rep (init it) 0%nat;
  new_le : forall s p, rep s p -> (p <= length l)%nat;
  new_next : forall fuel s p a, (N <= fuel)%nat -> rep s p -> nth_error l p = Some a ->
    exists s', next it fuel s = (Yield a, s') /\ rep s' (S p);
  new_stop : forall fuel s, (N <= fuel)%nat -> fin = true -> rep s (length l) ->
    exists s', next it fuel s = (Stop, s') /\ rep s' (length l);
  new_get : forall s p, rep s p -> crep (get_state it s) p;
  new_json : forall c p, json = true -> crep c p -> crep (jsonck it c) p;
  new_fresh : forall fuel c p, (N <= fuel)%nat -> crep c p -> live l fin p ->
    exists s', set_state it fuel (init it) c = Ok s' /\ rep s' p;
  new_used : forall fuel s q c p, (N <= fuel)%nat -> used = true -> rep s q -> crep c p -> live l fin p ->
    exists s', set_state it fuel s c = Ok s' /\ rep s' p;
}.
Arguments new_init {_ _ _ _ _ _ _ _ _}. Arguments new_le {_ _ _ _ _ _ _ _ _}.
Arguments new_next {_ _ _ _ _ _ _ _ _}. Arguments new_stop {_ _ _ _ _ _ _ _ _}.
Arguments new_get {_ _ _ _ _ _ _ _ _}. Arguments new_json {_ _ _ _ _ _ _ _ _}.
Arguments new_fresh {_ _ _ _ _ _ _ _ _}. Arguments new_used {_ _ _ _ _ _ _ _ _}.
Definition renewable {A} (it : Iter A) (l : list A) (fin used json : bool) : Prop :=
  exists N rep crep, NewLaw it l fin used json N rep crep.

Definition lawful {A} (it : Iter A) (l : list A) (fin used json : bool) : Prop :=
  exists N rep crep, Law it l fin used json N rep crep.
(** What reading returns: all of [l] and then StopIteration, or at least [l]. *)
Definition outputs {A} (it : Iter A) (l : list A) (fin : bool) : Prop :=
  if fin then elements it l else elements_prefix it l.
