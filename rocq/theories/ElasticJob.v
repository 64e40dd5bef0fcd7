(** Model of a job of several hosts over elastic iterators: every host reads an interleave of
    its own shards, the hosts save a checkpoint together, and the job goes on with another
    number of hosts.  The pieces are those of Interleave.v (the iterators) and Elastic.v (the
    checkpoint files); here they are put together the way ElasticIterator and CheckpointHandler
    do it. *)
From Verif Require Import Base Iter Interleave Elastic MultiprocessSpec.

Section Job.
Context {S C A : Type}.
Variable D : list (hiter S C A).           (* all shards *)
Variable cycle_length : nat.
Variable keep : bool.
Variable truthy : C -> bool.

(** The shards of host [h] of [n]: ElasticIterDatasetIterator numbers its local shard
    [local_index] as local_index * shard_count + shard_index (elastic_iterator.py:217-222). *)
Definition host_shards (n h : nat) : list (hiter S C A) := stride n h D.

(** What a file holds: the state of a shard, or the state of a host's iterator. *)
Definition content : Type := ((bool * C) + ilck C)%type.
(** json.loads(json.dumps(...)) of the state of shard [j], elastic_checkpoint.py:38-41,62. *)
Definition shard_json (j : nat) (c : C) : C := match nth_error D j with Some h => h_json h c | None => c end.
Definition content_json (j : Z) (x : content) : content :=
  match x with inl (e, c) => inl (e, shard_json (Z.to_nat j) c) | inr c => inr c end.
Definition host_json (n h : nat) (d : nat) : C -> C := match nth_error (host_shards n h) d with Some i => h_json i | None => fun c => c end.

(** The entries of get_shard_states, which are never None here. *)
Definition shard_states {X} (l : list (bool * option X)) : list (bool * X) :=
  flat_map (fun ec => match snd ec with Some c => [(fst ec, c)] | None => [] end) l.

(** CheckpointHandler.save by host [h] of [n], handler.py:36-62, with the JSON conversion:
    the shard states (elastic_checkpoint.py:30-43, elastic_iterator.py:199-224) and the
    iterator's own state.  No transformation on top of the interleave (global_batch_size = 0);
    see ElasticPipe.v for those. *)
Definition host_save (n h : nat) (s : il S C) : res (list (file * content)) :=
  let Dh := host_shards n h in
  let! l := il_get_shards Dh cycle_length s in
  let! (c, _) := il_get Dh cycle_length s in
  Ok (save_writes (Z.of_nat h) (Z.of_nat n)
        (Some (map (fun jx => (fst jx, content_json (fst jx) (snd jx)))
                   (get_shard_states (Z.of_nat h) (Z.of_nat n) (map inl (shard_states l)))))
        (inr (il_json (host_json n h) c))).
Definition job_save (n : nat) (ss : list (il S C)) : res (directory content) :=
  let! parts := sequence (map (fun hs => host_save n (fst hs) (snd hs)) (combine (seq 0 n) ss)) in
  Ok (concat parts).

(** CheckpointHandler.restore by host [h] of [n], handler.py:64-97, into a new iterator:
    set_shard_states makes one itself (elastic_iterator.py:244-246). *)
Definition host_restore (fuel : nat) (d : directory content) (n h : nat) : res (il S C) :=
  let Dh := host_shards n h in
  let! r := restore fuel d (Z.of_nat h) (Z.of_nat n) (Some (Z.of_nat h, Z.of_nat n)) in
  match r with
  | SetState (inr c) => il_set Dh keep truthy fuel (il_init Dh cycle_length) c
  | SetState (inl _) => Raise KeyError
  | SetShardStates l =>
      let! l := sequence (map (fun x => match x with inl y => Ok y | inr _ => Raise KeyError end) l) in
      il_set_shards Dh cycle_length keep truthy fuel (il_init Dh cycle_length) l
  end.
Definition job_restore (fuel : nat) (d : directory content) (n : nat) : res (list (il S C)) :=
  sequence (map (host_restore fuel d n) (seq 0 n)).

(** At most [k] calls of next. *)
Fixpoint host_read (Dh : list (hiter S C A)) (fuel k : nat) (s : il S C) : list A * il S C :=
  match k with
  | O => ([], s)
  | Datatypes.S k' =>
      match il_next Dh cycle_length keep fuel s with
      | (Yield a, s') => let (l, s'') := host_read Dh fuel k' s' in (a :: l, s'')
      | (_, s') => ([], s')
      end
  end.
Definition job_read (fuel n : nat) (ks : nat -> nat) (ss : list (il S C)) : list (list A * il S C) :=
  map (fun hs => host_read (host_shards n (fst hs)) fuel (ks (fst hs)) (snd hs)) (combine (seq 0 n) ss).

(** A new job on [n] hosts. *)
Definition job_start (n : nat) : list (il S C) := map (fun h => il_init (host_shards n h) cycle_length) (seq 0 n).

(** A job in several generations.  In each generation the hosts read, host [h] at most [ks h]
    elements.  Between two generations the job is saved and restored with the next number of
    hosts.  Result: what every host read in every generation, and the hosts at the end. *)
Fixpoint job (fuel : nat) (n : nat) (ks : nat -> nat) (later : list (nat * (nat -> nat))) (ss : list (il S C))
  : res (list (list (list A)) * (nat * list (il S C))) :=
  let r := job_read fuel n ks ss in
  match later with
  | [] => Ok ([map fst r], (n, map snd r))
  | (n', ks') :: later' =>
      let! d := job_save n (map snd r) in
      let! ss' := job_restore fuel d n' in
      let! (outs, fin) := job fuel n' ks' later' ss' in
      Ok (map fst r :: outs, fin)
  end.

(** Whether every exhausted shard comes before one of the first [m] shards that are not
    exhausted. *)
Definition ordered (m : nat) (flags : list bool) : bool :=
  let active := filter (fun d => negb (nth d flags true)) (seq 0 (length flags)) in
  forallb (fun d => negb (nth d flags true) || existsb (Nat.ltb d) (firstn m active)) (seq 0 (length flags)).
(** Whether this is so for the shards of every host, each time the job is restored. *)
Definition flag (x : content) : bool := match x with inl (e, _) => e | inr _ => false end.
Definition restore_ordered (fuel : nat) (d : directory content) (n : nat) : bool :=
  forallb (fun h => match restore fuel d (Z.of_nat h) (Z.of_nat n) (Some (Z.of_nat h, Z.of_nat n)) with
                    | Ok (SetShardStates l) => ordered (Nat.min cycle_length (length l)) (map flag l)
                    | _ => true
                    end) (seq 0 n).
Fixpoint job_ordered (fuel : nat) (n : nat) (ks : nat -> nat) (later : list (nat * (nat -> nat))) (ss : list (il S C)) : bool :=
  match later with
  | [] => true
  | (n', ks') :: later' =>
      match job_save n (map snd (job_read fuel n ks ss)) with
      | Ok d => restore_ordered fuel d n' &&
                match job_restore fuel d n' with Ok ss' => job_ordered fuel n' ks' later' ss' | _ => true end
      | _ => true
      end
  end.
End Job.
