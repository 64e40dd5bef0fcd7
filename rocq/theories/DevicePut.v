(** Model of grain/_src/python/experimental/device_put/device_put.py. *)
From Verif Require Import Base Iter Scheduled.

(** ThreadPrefetchIterDataset.__init__ and __iter__, prefetch.py:472-497.  [sched]: how the thread and the consumer take turns. *)
Definition thread_prefetch {A} (prefetch_buffer_size : Z) (sched : schedule) (p : Iter A) : res (Iter A) :=
  if prefetch_buffer_size <? 0 then Raise ValueError
  else Ok (thread_prefetch_it (Z.to_nat prefetch_buffer_size) false sched p).

(** device_put, device_put.py:24-51.  [put x] is jax.device_put(x, device). *)
Definition device_put {A B} (put : A -> res (option B)) (cpu_buffer_size device_buffer_size : Z) (sched sched' : schedule)
    (ds : Iter (option A)) : res (Iter (option B)) :=
  let! ds := thread_prefetch cpu_buffer_size sched ds in
  let ds := map_it put ds in
  thread_prefetch device_buffer_size sched' ds.
