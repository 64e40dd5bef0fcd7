(** Model of a job of several hosts over elastic iterators with transformations on top of the
    interleave, and with batches of the global batch size.  As in ElasticJob.v, but every host
    reads a pipeline whose source is the interleave of its shards. *)
From Verif Require Import Base Iter Interleave Elastic MultiprocessSpec ElasticJob.

(** ** The transformations *)

(** A transformation of an iterator: the iterator it makes, the state of the parent inside its
    state (what _find_sliceable_iterator reaches through _parents, elastic_iterator.py:88-111),
    and the state of a new iterator of the transformation whose parent is in the given state. *)
Record stage (A B : Type) := mkStage {
  over : Iter A -> Iter B;
  inner : forall p, ist (over p) -> ist p;
  fresh : forall p, ist p -> ist (over p) }.
Arguments mkStage {A B}. Arguments over {A B}. Arguments inner {A B}. Arguments fresh {A B}.

Definition same_stage {A} : stage A A := mkStage (fun p => p) (fun _ s => s) (fun _ s => s).
Definition then_stage {A B C} (a : stage A B) (b : stage B C) : stage A C :=
  mkStage (fun p => over b (over a p)) (fun p s => inner a p (inner b (over a p) s)) (fun p s => fresh b (over a p) (fresh a p s)).
(** map.py:309-345 ([map_it]), filter.py:73-137 ([filter_it]), batch.py:283-332 ([batch_iter]). *)
Definition map_stage {A B} (f : A -> res (option B)) : stage (option A) (option B) := mkStage (map_it f) (fun _ s => s) (fun _ s => s).
Definition filter_stage {A} (thr : option (Z * Z)) (f : A -> res bool) : stage A A :=
  mkStage (filter_it thr f) (fun _ s => fst s) (fun _ s => (s, checker0)).
Definition batch_stage {A B} (batch_size : Z) (drop : bool) (batch_fn : list A -> res B) : stage A B :=
  mkStage (batch_iter batch_size drop batch_fn) (fun _ s => s) (fun _ s => s).
(** limit.py:25-61, map.py:387-429, flatmap.py:78-141, shuffle.py:182-260, repeat.py. *)
Definition limit_stage {A} (count : Z) : stage A A := mkStage (limit_iter count) (fun _ s => fst s) (fun _ s => (s, 0)).
Definition map_with_index_stage {A B} (f : Z -> A -> res (option B)) : stage (option A) (option B) :=
  mkStage (map_with_index_it f) (fun _ s => fst s) (fun _ s => (s, 0)).
Definition flat_map_stage {A B} (f : A -> res (list B)) : stage A B :=
  mkStage (flat_map_it f) (fun _ s => fm_parent s) (fun p s => mkFlat s [] 0 (get_state p (init p))).
Definition window_shuffle_stage {A} gen_keys window_size seed : stage A A :=
  mkStage (window_shuffle_it gen_keys window_size seed) (fun _ s => ws_parent s) (fun p s => mkWs s [] 0 0 (get_state p (init p)) false).

(** ElasticIterDatasetIterator.__init__ and set_shard_states, elastic_iterator.py:153-166,
    238-243: the batches of a host of [n], on top of the dataset's own transformations.  [b] is
    the global batch size, here positive (else there is no batching, and the stage is the
    dataset's own). *)
Definition elastic_stage {A B E} (b : Z) (user : stage A B) (make : list B -> res E) (n : nat) : stage A E :=
  then_stage user (batch_stage (b / Z.of_nat n) false make).
Definition elastic_check (b : Z) (n : nat) : res unit :=
  if b mod Z.of_nat n =? 0 then Ok tt else Raise ValueError.

(** ** The job *)
Section Job.
Context {S C A B : Type}.
Variable D : list (hiter S C A).           (* all shards *)
Variable cycle_length : nat.
Variable keep : bool.
Variable truthy : C -> bool.
Variable st : nat -> stage A B.            (* the transformations, by the number of hosts *)
Variable check : nat -> res unit.          (* what the constructor checks, by the number of hosts *)

(** The iterator of host [h] of [n] (elastic_iterator.py:168). *)
Definition source (n h : nat) : Iter A := interleave_it (host_shards D n h) cycle_length keep truthy.
Definition host_it (n h : nat) : Iter B := over (st n) (source n h).

(** What a file holds: the state of a shard, or the state of a host's iterator. *)
Definition own_state : Type := {nh : nat * nat & ick (host_it (fst nh) (snd nh))}.
Definition pcontent : Type := ((bool * C) + own_state)%type.
Definition pjson (j : Z) (x : pcontent) : pcontent :=
  match x with inl (e, c) => inl (e, shard_json D (Z.to_nat j) c) | inr c => inr c end.

(** CheckpointHandler.save by host [h] of [n], handler.py:36-62: the states of the shards come
    from the interleave (get_shard_states, elastic_iterator.py:199-224), the other state from
    the whole iterator (get_state, 265-271). *)
Definition pipe_host_save (n h : nat) (s : ist (host_it n h)) : res (list (file * pcontent)) :=
  let! l := il_get_shards (host_shards D n h) cycle_length (inner (st n) (source n h) s) in
  Ok (save_writes (Z.of_nat h) (Z.of_nat n)
        (Some (map (fun jx => (fst jx, pjson (fst jx) (snd jx)))
                   (get_shard_states (Z.of_nat h) (Z.of_nat n) (map inl (shard_states l)))))
        (inr (existT _ (n, h) (jsonck (host_it n h) (get_state (host_it n h) s))))).
Definition pipe_save (n : nat) (ss : forall h, ist (host_it n h)) : res (directory pcontent) :=
  let! parts := sequence (map (fun h => pipe_host_save n h (ss h)) (seq 0 n)) in
  Ok (concat parts).

(** CheckpointHandler.restore by host [h] of [n], handler.py:64-97, into a new iterator:
    set_shard_states makes one and sets the states of the interleave in it
    (elastic_iterator.py:225-263). *)
Definition pair_dec (x y : nat * nat) : {x = y} + {x <> y}. Proof. decide equality; apply Nat.eq_dec. Defined.
Definition pipe_host_restore (fuel : nat) (d : directory pcontent) (n h : nat) : res (ist (host_it n h)) :=
  let! r := restore fuel d (Z.of_nat h) (Z.of_nat n) (Some (Z.of_nat h, Z.of_nat n)) in
  match r with
  | SetState (inr (existT _ nh c)) =>
      match pair_dec nh (n, h) with
      | left e => set_state (host_it n h) fuel (init (host_it n h)) (eq_rect nh (fun nh => ick (host_it (fst nh) (snd nh))) c (n, h) e)
      | right _ => Raise KeyError
      end
  | SetState (inl _) => Raise KeyError
  | SetShardStates l =>
      let! l := sequence (map (fun x => match x with inl y => Ok y | inr _ => Raise KeyError end) l) in
      let! s := il_set_shards (host_shards D n h) cycle_length keep truthy fuel (il_init (host_shards D n h) cycle_length) l in
      Ok (fresh (st n) (source n h) s)
  end.
(** All hosts.  ([ss h] for a host whose restore failed is not used: an exception then ends the
    job.) *)
Definition pipe_restore (fuel : nat) (d : directory pcontent) (n : nat) : res (forall h, ist (host_it n h)) :=
  let! _ := sequence (map (fun h => let! _ := pipe_host_restore fuel d n h in Ok tt) (seq 0 n)) in
  Ok (fun h => match pipe_host_restore fuel d n h with Ok s => s | _ => init (host_it n h) end).

(** At most [k] calls of next. *)
Fixpoint read {X} (it : Iter X) (fuel k : nat) (s : ist it) : list X * ist it :=
  match k with
  | O => ([], s)
  | Datatypes.S k' =>
      match next it fuel s with
      | (Yield a, s') => let (l, s'') := read it fuel k' s' in (a :: l, s'')
      | (_, s') => ([], s')
      end
  end.
Definition pipe_start (n : nat) (h : nat) : ist (host_it n h) := init (host_it n h).

(** A job in several generations, as [job] in ElasticJob.v. *)
Fixpoint pipe_job (fuel : nat) (n : nat) (ks : nat -> nat) (later : list (nat * (nat -> nat))) (ss : forall h, ist (host_it n h))
  : res (list (list (list B)) * {n : nat & forall h, ist (host_it n h)}) :=
  let! _ := check n in
  let outs := map (fun h => fst (read (host_it n h) fuel (ks h) (ss h))) (seq 0 n) in
  let ss1 := fun h => snd (read (host_it n h) fuel (ks h) (ss h)) in
  match later with
  | [] => Ok ([outs], existT _ n ss1)
  | (n', ks') :: later' =>
      let! d := pipe_save n ss1 in
      let! ss2 := pipe_restore fuel d n' in
      let! (outs', fin) := pipe_job fuel n' ks' later' ss2 in
      Ok (outs :: outs', fin)
  end.

(** Whether, each time the job is restored, every exhausted shard of a host comes before one of
    the shards that the host opens at once. *)
Definition pflag (x : pcontent) : bool := match x with inl (e, _) => e | inr _ => false end.
Definition pipe_restore_ordered (fuel : nat) (d : directory pcontent) (n : nat) : bool :=
  forallb (fun h => match restore fuel d (Z.of_nat h) (Z.of_nat n) (Some (Z.of_nat h, Z.of_nat n)) with
                    | Ok (SetShardStates l) => ordered (Nat.min cycle_length (length l)) (map pflag l)
                    | _ => true
                    end) (seq 0 n).
Fixpoint pipe_ordered (fuel : nat) (n : nat) (ks : nat -> nat) (later : list (nat * (nat -> nat))) (ss : forall h, ist (host_it n h)) : bool :=
  match later with
  | [] => true
  | (n', ks') :: later' =>
      match pipe_save n (fun h => snd (read (host_it n h) fuel (ks h) (ss h))) with
      | Ok d => pipe_restore_ordered fuel d n' &&
                match pipe_restore fuel d n' with Ok ss' => pipe_ordered fuel n' ks' later' ss' | _ => true end
      | _ => true
      end
  end.
End Job.
