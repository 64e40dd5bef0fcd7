(** Model of mp_prefetch over InterleaveIterDataset (interleaved files, as in the docstring of
    interleave.py:501-522): transformations/process_prefetch.py:649-755, transformations/interleave.py:573-575. *)
From Verif Require Import Base ListFacts Iter Interleave ThreadPrefetch ProcessPrefetch Scheduled Multiprocess MultiprocessSpec.

(** An iterator of one of the datasets. *)
Definition h_it {S C A} (h : hiter S C A) : Iter A :=
  {| ist := S; ick := C; init := h_init h; next := h_next h; get_state := h_get h; set_state := h_set h; jsonck := h_json h |}.

Section MpInterleave.
Context {S C A : Type}.
Variable D : list (hiter S C A).
Variable cycle_length : nat.
Variable truthy : C -> bool.

(** The interleave iterator in a worker process: after every element the worker asks for the state
    (process_prefetch.py:286), and get_state changes the iterator (it fills the slots not used yet, interleave.py:174-214). *)
Definition polled_it (ds : list (hiter S C A)) : Iter A :=
  let it := interleave_it ds cycle_length false truthy in
  {| ist := ist it; ick := ick it; init := init it;
     next := fun fuel s =>
       match il_next ds cycle_length false fuel s with
       | (Yield a, s') => match il_get ds cycle_length s' with Ok (_, s'') => (Yield a, s'') | _ => (Fail InternalError, s') end
       | r => r
       end;
     get_state := get_state it; set_state := set_state it; jsonck := jsonck it |}.

(** InterleaveIterDataset.set_slice with slice(i, None, W), interleave.py:573-575. *)
Definition files_of (W i : nat) : list (hiter S C A) := stride W i D.

(** [p] with the state [c0] in place of its own state at the start.  ProcessPrefetchDatasetIterator.get_state
    (process_prefetch.py:582-587) before the first element gives the state of a new iterator made in the main process, where
    _LazyWorkerSliceIterDataset does not slice the dataset (lines 662-668): a state of the whole dataset. *)
Definition with_start {B} (p : Iter B) (c0 : ick p) : Iter B :=
  {| ist := bool * ist p; ick := ick p; init := (true, init p);
     next := fun fuel s => let (o, s') := next p fuel (snd s) in (o, (false, s'));
     get_state := fun s => if fst s then c0 else get_state p (snd s);
     set_state := fun fuel s c => let! s' := set_state p fuel (snd s) c in Ok (false, s');
     jsonck := jsonck p |}.

(** Worker [i] of [W]: process_prefetch.py:706-728.  [whole]: whether the state at the start is that of the whole dataset, as
    it is in the code if there is more than one worker. *)
Definition file_worker (whole : bool) (W i : nat) : Iter A :=
  if Nat.eqb W 1 then polled_it D
  else if whole then with_start (polled_it (files_of W i)) (get_state (polled_it D) (init (polled_it D)))
  else polled_it (files_of W i).

(** multiprocess_prefetch, process_prefetch.py:678-755.  The threads that read from the processes are started by the first next
    here (in the code also before it); set_state makes new iterators whose threads have not been started (interleave.py:279-283). *)
Definition file_workers (whole : bool) (W buffer_size : nat) (keep : bool) (r : running) : list (Iter A) :=
  map (fun i => thread_prefetch_it buffer_size false (r_thread r i)
                  (process_prefetch_it buffer_size keep (r_process r i) (file_worker whole W i))) (seq 0 W).
Definition mp_files (whole : bool) (W buffer_size : nat) (keep : bool) (r : running) : Iter A :=
  interleave (file_workers whole W buffer_size keep r) W keep (fun _ => true).
End MpInterleave.
