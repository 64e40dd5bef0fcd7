(** Specification of get_next_index and set_next_index: histories that also read and set the index, on an iterator and
    on a cursor; and the pipelines the claim is made for. *)
From Verif Require Import Base MapDatasets Spec Iter IterSpec NextIndex Scheduled.

(** What a user may do: everything of IterSpec.v, and read or set the index. *)
Inductive iop : Type := Use (o : op) | GetIndex | SetIndex (i : Z).
Inductive iobs (A : Type) : Type := Saw (o : obs A) | IndexIs (r : res Z) | IndexSet (r : res unit).
Arguments Saw {A}. Arguments IndexIs {A}. Arguments IndexSet {A}.

Fixpoint irun {A} (x : Indexed A) (fuel : nat) (ops : list iop) (s : ist (ix_it x)) (cks : list (ick (ix_it x))) : list (iobs A) :=
  match ops with
  | [] => []
  | Use ONext :: ops' => let (o, s') := next (ix_it x) fuel s in Saw (Got o) :: irun x fuel ops' s' cks
  | Use OSave :: ops' => Saw Saved :: irun x fuel ops' s (cks ++ [get_state (ix_it x) s])
  | Use (OLoad k json) :: ops' =>
      match nth_error cks k with
      | None => Saw NoSuchCheckpoint :: irun x fuel ops' s cks
      | Some c =>
          match set_state (ix_it x) fuel s (if json then jsonck (ix_it x) c else c) with
          | Ok s' => Saw Loaded :: irun x fuel ops' s' cks
          | _ => Saw LoadFailed :: irun x fuel ops' s cks
          end
      end
  | Use ORestart :: ops' => Saw Restarted :: irun x fuel ops' (init (ix_it x)) cks
  | GetIndex :: ops' => let (r, s') := get_index x fuel s in IndexIs r :: irun x fuel ops' s' cks
  | SetIndex i :: ops' => let (r, s') := set_index x fuel s i in IndexSet r :: irun x fuel ops' s' cks
  end.

(** On a cursor into the list [l] of elements, [p] elements before the cursor: the index is [p]. *)
Fixpoint icursor {A} (l : list A) (ops : list iop) (p : nat) (ps : list nat) : list (iobs A) :=
  match ops with
  | [] => []
  | Use ONext :: ops' =>
      match nth_error l p with
      | Some a => Saw (Got (Yield a)) :: icursor l ops' (S p) ps
      | None => Saw (Got Stop) :: icursor l ops' p ps
      end
  | Use OSave :: ops' => Saw Saved :: icursor l ops' p (ps ++ [p])
  | Use (OLoad k _) :: ops' =>
      match nth_error ps k with
      | None => Saw NoSuchCheckpoint :: icursor l ops' p ps
      | Some q => Saw Loaded :: icursor l ops' q ps
      end
  | Use ORestart :: ops' => Saw Restarted :: icursor l ops' 0 ps
  | GetIndex :: ops' => IndexIs (Ok (Z.of_nat p)) :: icursor l ops' p ps
  | SetIndex i :: ops' => IndexSet (Ok tt) :: icursor l ops' (Z.to_nat i) ps
  end.

(** The indices a history sets are between 0 and [reach]. *)
Definition sets_within (reach : nat) (ops : list iop) : Prop :=
  forall i, In (SetIndex i) ops -> 0 <= i <= Z.of_nat reach.

(** [indexed x l reach]: [x] is built from the transformations that know their index and outputs [l]; [reach] is the last
    index that can be set.  The source has no missing elements (or outputs them as None), and no remainder is dropped. *)
Inductive indexed : forall {A : Type}, Indexed A -> list A -> nat -> Prop :=
| i_source A (ds : MapDs A) E allow_nones sched num_threads buffer_size :
    (forall i e, nth_error E i = Some e -> mget ds (Z.of_nat i) = Ok e) -> Z.of_nat (length E) = mlen ds ->
    (allow_nones = false -> ~ In None E) ->
    indexed (source_ix sched allow_nones num_threads buffer_size ds) E (length E)
| i_map A B (f : A -> res (option B)) p l l' r :
    Forall2 (fun e b => map_element f e = Ok b) l l' ->
    indexed p l r -> indexed (map_ix f p) l' r
| i_map_with_index A B (f : Z -> A -> res (option B)) p l l' r :
    Forall2 (fun ie b => map_element (f (fst ie)) (snd ie) = Ok b) (combine (zrange 0 (length l)) l) l' ->
    indexed p l r -> indexed (map_with_index_ix f p) l' r
| i_random_map A B G (f : A -> G -> res (option B)) rng pi pc p l l' r :
    Forall2 (fun ie b => map_element (fun x => f x (rng (pi + fst ie * pc))) (snd ie) = Ok b)
            (combine (zrange 0 (length l)) l) l' ->
    indexed p l r -> indexed (random_map_ix f rng pi pc p) l' r
| i_batch A B b (drop : bool) (batch_fn : list A -> res B) p l l' r :
    (1 <= b)%nat -> (drop = true -> exists k, length l = k * b)%nat ->
    Forall2 (fun c e => batch_fn c = Ok e) (chunks b l) l' ->
    indexed p l r -> indexed (batch_ix (Z.of_nat b) drop batch_fn p) l' (r / b)
| i_limit A n (p : Indexed A) l r : (1 <= n)%nat ->
    indexed p l r -> indexed (limit_ix (Z.of_nat n) p) (firstn n l) (Nat.min n r)
| i_thread A size eager sched (p : Indexed A) l r : (eager = true -> (1 <= size)%nat) ->
    indexed p l r -> indexed (thread_ix size eager sched p) l r.
