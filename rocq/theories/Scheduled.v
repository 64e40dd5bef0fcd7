(** The iterators with a prefetching thread or process as iterators in the sense of Iter.v, so that other
    transformations can use them as parents.  Each takes a schedule: it says which of the two
    goes first at every step (if that one cannot take a step, the other one does), and is arbitrary in all theorems.
    Steps that the thread or process takes between two calls are taken at the beginning of the next call. *)
From Verif Require Import Base Iter IterSpec ThreadPrefetch ProcessPrefetch.

(** [drive]: until the call that has been made returns. *)
Definition schedule := nat -> bool * nat.
Fixpoint drive {G} (consumer : nat -> G -> option G) (worker : G -> option G) (returned : G -> bool) (sched : schedule)
    (fuel i : nat) (g : G) : option (nat * G) :=
  match fuel with
  | O => None
  | S fuel' =>
      if returned g then Some (i, g)
      else
        let (first, k) := sched i in
        match (if first then match consumer k g with Some g' => Some g' | None => worker g end
               else match worker g with Some g' => Some g' | None => consumer k g end) with
        | Some g' => drive consumer worker returned sched fuel' (S i) g'
        | None => None
        end
  end.

(** ThreadPrefetchIterDataset, prefetch.py:526-749, with the steps of ThreadPrefetch.v.  [eager]: start_prefetch is called on
    the new iterator (interleave.py:492-493). *)
Definition treturned {A} {p : Iter A} (g : prog p) : bool :=
  match pg_at g, pg_calls g with Idle, [] => true | _, _ => false end.
Definition tdrive {A} (p : Iter A) (size : nat) (sched : schedule) (fuel i : nat) (g : prog p) : option (nat * prog p) :=
  drive (fun _ => consumer_step p fuel size)
        (fun g => match producer_step p fuel size (pg_it g) with
                  | Some s => Some (mkProg (pg_calls g) (pg_cks g) (pg_obs g) (pg_at g) s)
                  | None => None
                  end)
        treturned sched fuel i g.
Definition thread_prefetch_it {A} (size : nat) (eager : bool) (sched : schedule) (p : Iter A) : Iter A :=
  {| ist := tp p * nat;
     ick := ick p;
     init := (if eager then start (tp_init p) else tp_init p, 0%nat);
     next := fun fuel s =>
       match tdrive p size sched fuel (snd s) (mkProg [Do ONext] [] [] Idle (fst s)) with
       | Some (i, g) => match pg_obs g with Got o :: _ => (o, (pg_it g, i)) | _ => (NoFuel, s) end
       | None => (NoFuel, s)
       end;
     get_state := fun s => tp_state (fst s);
     set_state := fun fuel s c =>
       match tdrive p size sched fuel (snd s) (mkProg [Do (OLoad 0 false)] [c] [] Idle (fst s)) with
       | Some (i, g) => match pg_obs g with Loaded :: _ => Ok (pg_it g, i) | _ => Raise UserError end
       | None => OutOfFuel
       end;
     jsonck := jsonck p |}.

(** ProcessPrefetchIterDataset, process_prefetch.py:140-190, with the steps of ProcessPrefetch.v; the worker starts without
    an error, is not killed, and what has been put in the queue of requests is visible. *)
Definition preturned {A} {p : Iter A} (g : pprog p) : bool :=
  match pq_at g, pq_calls g with PIdle, [] => true | _, _ => false end.
Definition pdrive {A} (p : Iter A) (size : nat) (keep : bool) (sched : schedule) (fuel i : nat) (g : pprog p) :
    option (nat * pprog p) :=
  drive (fun k => pconsumer_step p keep false k)
        (fun g => match worker_step p fuel size (Ok tt) (pq_it g) with
                  | Some s => Some (mkPprog (pq_calls g) (pq_cks g) (pq_obs g) (pq_at g) s)
                  | None => None
                  end)
        preturned sched fuel i g.
Definition process_prefetch_it {A} (size : nat) (keep : bool) (sched : schedule) (p : Iter A) : Iter A :=
  {| ist := pp p * nat;
     ick := ick p;
     init := (pp_init p, 0%nat);
     next := fun fuel s =>
       match pdrive p size keep sched fuel (snd s) (mkPprog [Do ONext] [] [] PIdle (fst s)) with
       | Some (i, g) => match pq_obs g with Got o :: _ => (o, (pq_it g, i)) | _ => (NoFuel, s) end
       | None => (NoFuel, s)
       end;
     get_state := fun s => pget_state (fst s);
     set_state := fun fuel s c =>
       match pdrive p size keep sched fuel (snd s) (mkPprog [Do (OLoad 0 false)] [c] [] PIdle (fst s)) with
       | Some (i, g) => match pq_obs g with Loaded :: _ => Ok (pq_it g, i) | _ => Raise UserError end
       | None => OutOfFuel
       end;
     jsonck := jsonck p |}.
