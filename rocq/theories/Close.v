(** Model of DatasetIterator.close, grain/_src/python/dataset/dataset.py:1534-1556, and of the iterators that have their own:
    transformations/prefetch.py:242-243, 380-391, 657-662 and process_prefetch.py:438-439, 546-549.

    The transformations are those of Iter.v, Scheduled.v.  [cl_running] counts thread pools, prefetching threads and
    worker processes that have not been told to stop.  Not modelled: garbage collection (__del__), which closes what is no longer used;
    changes of the numbers of threads by autotuning; ThreadPrefetchIterDataset with prefetch_buffer_size=0. *)
From Verif Require Import Base MapDatasets Iter IterSpec ThreadPrefetch ProcessPrefetch Scheduled.

Record Closable (A : Type) := mkClosable {
  cl_it : Iter A;
  cl_close : ist cl_it -> ist cl_it;
  cl_running : ist cl_it -> nat;
}.
Arguments mkClosable {A}. Arguments cl_it {A}. Arguments cl_close {A}. Arguments cl_running {A}.

(** DatasetIterator.close, dataset.py:1548-1552: sets _closed (line 1442) and closes the parents, unless it is set.  The
    __next__ of these classes does not look at _closed. *)
Definition base {A} (it : Iter A) (close_parents : ist it -> ist it) (running : ist it -> nat) : Closable A :=
  {| cl_it :=
       {| ist := ist it * bool; ick := ick it; init := (init it, false);
          next := fun fuel '(s, closed) => let (o, s') := next it fuel s in (o, (s', closed));
          get_state := fun '(s, _) => get_state it s;
          set_state := fun fuel '(s, closed) c => let! s' := set_state it fuel s c in Ok (s', closed);
          jsonck := jsonck it |};
     cl_close := fun '(s, closed) => if closed : bool then (s, closed) else (close_parents s, true);
     cl_running := fun '(s, _) => running s |}.

(** An iterator that makes its elements itself and has no parents (a file, or a class of the user). *)
Definition source_cl {A} (it : Iter A) : Closable A := base it (fun s => s) (fun _ => 0%nat).

(** PrefetchDatasetIterator: _assert_not_closed (line 243, dataset.py:1554-1556), close (lines 380-391).  The executor exists when
    both numbers are positive (lines 198-201). *)
Definition pf_executor {A} (s : pf_st A) : bool := (pf_size s >? 0) && (pf_threads s >? 0).
Definition prefetch_cl {A} (thr : option (Z * Z)) (allow_nones : bool) (num_threads buffer_size : Z) (ds : MapDs A)
  : Closable (option A) :=
  let it := prefetch_it thr allow_nones num_threads buffer_size ds in
  {| cl_it :=
       {| ist := pf_st A * bool; ick := Z; init := (init it, false);
          next := fun fuel '(s, closed) =>
            if closed : bool then (Fail ValueError, (s, closed))
            else let (o, s') := next it fuel s in (o, (s', closed));
          get_state := fun '(s, _) => get_state it s;
          set_state := fun fuel '(s, closed) c => let! s' := set_state it fuel s c in Ok (s', closed);
          jsonck := jsonck it |};
     cl_close := fun '(s, closed) =>
       if closed : bool then (s, closed)
       else (if pf_executor s then mkPf (pf_ret s) (pf_buf s) [] (pf_size s) (pf_threads s) (pf_checker s) else s, true);
     cl_running := fun '(s, closed) => if negb closed && pf_executor s then 1%nat else 0%nat |}.

(** ThreadPrefetchDatasetIterator with a positive buffer size: __next__ calls start_prefetch, which raises (lines 605-606, 634);
    close, lines 657-662, with _stop_prefetch, lines 671-698.  What the thread does between the call of close and its end is
    left out: the parent is closed in the state of the thread's last step before the call. *)
Definition stopped {A} {p : Iter A} (s : tp p) : tp p :=
  match tp_thread s with None => s | Some _ => mkTp (tp_parent s) [] None true (tp_state s) end.
Definition thread_cl {A} (size : nat) (eager : bool) (sched : schedule) (p : Closable A) : Closable A :=
  let t := thread_prefetch_it (S size) eager sched (cl_it p) in
  {| cl_it :=
       {| ist := ist t * bool; ick := ick t; init := (init t, false);
          next := fun fuel '(s, closed) =>
            if closed : bool then (Fail ValueError, (s, closed))
            else let (o, s') := next t fuel s in (o, (s', closed));
          get_state := fun '(s, _) => get_state t s;
          set_state := fun fuel '(s, closed) c => let! s' := set_state t fuel s c in Ok (s', closed);
          jsonck := jsonck t |};
     cl_close := fun '((s, k), _) =>
       let s := stopped s in
       ((mkTp (cl_close p (tp_parent s)) (tp_buffer s) (tp_thread s) (tp_stop s) (tp_state s), k), true);
     cl_running := fun '((s, _), _) =>
       ((match tp_thread s with None => 0 | Some _ => 1 end) + cl_running p (tp_parent s))%nat |}.

(** ProcessPrefetchDatasetIterator: __next__ (lines 496-500, 438-439), close (lines 546-549) with _stop_prefetch (lines 557-580).  The
    iterators inside the worker end with it. *)
Definition pstopped {A} {p : Iter A} (s : pp p) : pp p :=
  match pp_worker s with
  | None => s
  | Some _ => mkPp None (pp_parent s) (pp_exh s) true [] [] (pp_count s - length (pp_reqs s)) 0 (pp_exhausted s) (pp_state s)
  end.
Definition process_cl {A} (size : nat) (keep : bool) (sched : schedule) (p : Iter A) : Closable A :=
  let t := process_prefetch_it size keep sched p in
  {| cl_it :=
       {| ist := ist t * bool; ick := ick t; init := (init t, false);
          next := fun fuel '(s, closed) =>
            if (closed : bool) && negb (pp_exhausted (fst s)) then (Fail ValueError, (s, closed))
            else if closed then (Stop, (s, closed))
            else let (o, s') := next t fuel s in (o, (s', closed));
          get_state := fun '(s, _) => get_state t s;
          set_state := fun fuel '(s, closed) c => let! s' := set_state t fuel s c in Ok (s', closed);
          jsonck := jsonck t |};
     cl_close := fun '((s, k), _) => ((pstopped s, k), true);
     cl_running := fun '((s, _), _) => match pp_worker s with None => 0%nat | Some _ => 1%nat end |}.

(** The iterators of Iter.v whose definition includes a check of the arguments, without it. *)
Definition repeat_iter {A} (num_epochs : option Z) (p : Iter A) : Iter A :=
  {| ist := ist p * Z; ick := ick p * Z; init := (init p, 0);
     next := fun fuel '(s, epoch) =>
       if is_last num_epochs epoch then (Stop, (s, epoch))
       else repeat_loop num_epochs p (get_state p (init p)) fuel s epoch;
     get_state := fun '(s, epoch) => (get_state p s, epoch);
     set_state := fun fuel '(s, _) '(c, epoch) => let! s' := set_state p fuel s c in Ok (s', epoch);
     jsonck := fun '(c, epoch) => (jsonck p c, epoch) |}.
Definition zip_iter {A} (strict : bool) (ps : list (Iter A)) : Iter (list A) :=
  {| ist := hst ps; ick := hck ps; init := hinit ps;
     next := fun fuel => zip_pull strict true ps fuel;
     get_state := hget ps; set_state := hset ps; jsonck := hjson ps |}.
Definition mixed_iter {A} (proportions : list Z) (ps : list (Iter A)) : Iter A :=
  {| ist := hst ps * Z * bool; ick := hck ps * Z * bool; init := (hinit ps, 0, false);
     next := fun fuel '(s, index, stop) =>
       if stop : bool then (Stop, (s, index, true))
       else match dataset_and_key index proportions with
       | Ok (input_index, _) =>
           let (o, s') := hnext ps fuel (Z.to_nat input_index) s in
           match o with
           | Yield a => (Yield a, (s', index + 1, false))
           | o => (o, (s', index + 1, true))
           end
       | r => (of_res (let! _ := r in Raise InternalError), (s, index, false))
       end;
     get_state := fun '(s, index, stop) => (hget ps s, index, stop);
     set_state := fun fuel '(s, _, _) '(c, index, stop) =>
       let! s' := hset ps fuel s c in Ok (s', index, stop);
     jsonck := fun '(c, index, stop) => (hjson ps c, index, stop) |}.
Fact repeat_same {A} n (p : Iter A) :
  repeat_it n p = if match n with None => false | Some n => n <=? 0 end then Raise ValueError else Ok (repeat_iter n p).
Proof. reflexivity. Qed.
Fact zip_same {A} strict (ps : list (Iter A)) : zip_it strict ps = match ps with [] => Raise ValueError | _ => Ok (zip_iter strict ps) end.
Proof. destruct ps; reflexivity. Qed.
Fact mixed_same {A} props (ps : list (Iter A)) :
  mixed_it props ps =
  if existsb (Z.eqb 0) props then Raise ValueError else if Nat.eqb (List.length props) 0 then Raise ValueError
  else if negb (Nat.eqb (List.length ps) (List.length props)) then Raise AssertionError else Ok (mixed_iter props ps).
Proof. reflexivity. Qed.

(** Several parents. *)
Fixpoint hclose {A} (ps : list (Closable A)) : hst (map cl_it ps) -> hst (map cl_it ps) :=
  match ps with [] => fun s => s | p :: ps => fun s => (cl_close p (fst s), hclose ps (snd s)) end.
Fixpoint hrunning {A} (ps : list (Closable A)) : hst (map cl_it ps) -> nat :=
  match ps with [] => fun _ => 0%nat | p :: ps => fun s => (cl_running p (fst s) + hrunning ps (snd s))%nat end.

Section Pipelines.
Context {A : Type}.
Variable gen_keys : Z -> Z -> list Z.
Variable tuple_of : list (option A) -> option A.

(** A pipeline.  Rebatching and packing keep elements like CFlatMap and CWindowShuffle and are not repeated here. *)
Inductive cpipe : Type :=
| CSource (thr : option (Z * Z)) (allow_nones : bool) (num_threads buffer_size : Z) (ds : MapDs A)
| CUser (it : Iter (option A))
| CMap (f : A -> res (option A)) (p : cpipe)
| CMapWithIndex (f : Z -> A -> res (option A)) (p : cpipe)
| CRandomMap (f : A -> Z -> res (option A)) (rng : Z -> Z) (pi pc : Z) (p : cpipe)
| CFilter (thr : option (Z * Z)) (f : option A -> res bool) (p : cpipe)
| CBatch (batch_size : Z) (drop : bool) (batch_fn : list (option A) -> res (option A)) (p : cpipe)
| CLimit (count : Z) (p : cpipe)
| CRepeat (num_epochs : option Z) (p : cpipe)
| CWindowShuffle (window_size seed : Z) (p : cpipe)
| CCache (p : cpipe)
| CFlatMap (f : option A -> res (list (option A))) (p : cpipe)
| CZip (strict : bool) (ps : list cpipe)
| CMix (proportions : list Z) (ps : list cpipe)
| CThread (size : nat) (eager : bool) (sched : schedule) (p : cpipe)
| CProcess (size : nat) (keep : bool) (sched : schedule) (p : cpipe).

(** The iterator; the constructors' checks are those of Iter.v. *)
Fixpoint cden (p : cpipe) : res (Closable (option A)) :=
  match p with
  | CSource thr an nt bs ds => Ok (prefetch_cl thr an nt bs ds)
  | CUser it => Ok (source_cl it)
  | CMap f p => let! c := cden p in Ok (base (map_it f (cl_it c)) (cl_close c) (cl_running c))
  | CMapWithIndex f p =>
      let! c := cden p in
      Ok (base (map_with_index_it f (cl_it c)) (fun s => (cl_close c (fst s), snd s)) (fun s => cl_running c (fst s)))
  | CRandomMap f rng pi pc p =>
      let! c := cden p in
      Ok (base (random_map_it f rng pi pc (cl_it c)) (fun s => (cl_close c (fst s), snd s)) (fun s => cl_running c (fst s)))
  | CFilter thr f p =>
      let! c := cden p in
      Ok (base (filter_it thr f (cl_it c)) (fun s => (cl_close c (fst s), snd s)) (fun s => cl_running c (fst s)))
  | CBatch n drop fn p =>
      let! c := cden p in
      if n <=? 0 then Raise ValueError
      else Ok (base (batch_iter n drop fn (cl_it c)) (cl_close c) (cl_running c))
  | CLimit n p =>
      let! c := cden p in
      if n <=? 0 then Raise ValueError
      else Ok (base (limit_iter n (cl_it c)) (fun s => (cl_close c (fst s), snd s)) (fun s => cl_running c (fst s)))
  | CRepeat n p =>
      let! c := cden p in
      if match n with None => false | Some n => n <=? 0 end then Raise ValueError
      else Ok (base (repeat_iter n (cl_it c)) (fun s => (cl_close c (fst s), snd s)) (fun s => cl_running c (fst s)))
  | CWindowShuffle w seed p =>
      let! c := cden p in
      Ok (base (window_shuffle_it gen_keys w seed (cl_it c))
            (fun s => mkWs (cl_close c (ws_parent s)) (ws_window s) (ws_index s) (ws_pos s) (ws_start s) (ws_exhausted s))
            (fun s => cl_running c (ws_parent s)))
  | CCache p =>
      let! c := cden p in
      Ok (base (cache_it (cl_it c))
            (fun s => mkCa (cl_close c (ca_parent s)) (ca_cache s) (ca_pos s) (ca_filled s) (ca_rebuild s))
            (fun s => cl_running c (ca_parent s)))
  | CFlatMap f p =>
      let! c := cden p in
      Ok (base (flat_map_it f (cl_it c))
            (fun s => mkFlat (cl_close c (fm_parent s)) (fm_buffer s) (fm_index s) (fm_last s))
            (fun s => cl_running c (fm_parent s)))
  | CZip strict ps =>
      let! cs := sequence (map cden ps) in
      match cs with
      | [] => Raise ValueError
      | _ => Ok (base (retype tuple_of (zip_iter strict (map cl_it cs))) (hclose cs) (hrunning cs))
      end
  | CMix props ps =>
      let! cs := sequence (map cden ps) in
      if existsb (Z.eqb 0) props then Raise ValueError else if Nat.eqb (List.length props) 0 then Raise ValueError
      else if negb (Nat.eqb (List.length cs) (List.length props)) then Raise AssertionError
      else Ok (base (mixed_iter props (map cl_it cs))
                 (fun s => (hclose cs (fst (fst s)), snd (fst s), snd s)) (fun s => hrunning cs (fst (fst s))))
  | CThread size eager sched p => let! c := cden p in Ok (thread_cl size eager sched c)
  | CProcess size keep sched p => let! c := cden p in Ok (process_cl size keep sched (cl_it c))
  end.
End Pipelines.
Arguments cpipe : clear implicits.
