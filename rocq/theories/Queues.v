(** Model of grain/_src/python/ipc/variable_size_queue.py: the two queues whose
    maximum size can be changed while they are used. *)
From Verif Require Import Base.

(** * VariableSizeQueue (threads), variable_size_queue.py:113-185. *)

(** [vq_items]: the queue.Queue inside.  [vq_putting]: the element of the thread that
    holds self._cond after having seen room for it.  [vq_waiters]: threads inside
    self._cond.wait.  [vq_woken]: threads whose wait was ended (by a notification or a
    timeout) and who will look at the queue again.  [vq_notify]: threads that have
    taken an element and not yet called notify.  [vq_in], [vq_out]: all the elements put and got
    so far, in order (history variables). *)
Record vq (A : Type) := mkVq {
  vq_items : list A;
  vq_max : nat;
  vq_putting : option A;
  vq_waiters : nat;
  vq_woken : nat;
  vq_notify : nat;
  vq_in : list A;
  vq_out : list A;
}.
Arguments mkVq {A}. Arguments vq_items {A}. Arguments vq_max {A}. Arguments vq_putting {A}.
Arguments vq_waiters {A}. Arguments vq_woken {A}. Arguments vq_notify {A}.
Arguments vq_in {A}. Arguments vq_out {A}.

(** __init__, variable_size_queue.py:116-119. *)
Definition vq_init {A} (max_size : nat) : vq A := mkVq [] max_size None 0 0 0 [] [].

(** One atomic step of any thread.  [super().put], [super().get] and [qsize] are atomic
    (queue.Queue has its own lock); [with self._cond] blocks exclude each other; a put
    holds self._cond between looking at the size and adding its element, a get does
    not hold it while taking. *)
Inductive vq_step {A} : vq A -> vq A -> Prop :=
(* put, lines 144-148 and 156-168: there is room; self._cond stays held *)
| vq_put_room x items max w k n i o :
    (length items < max)%nat ->
    vq_step (mkVq items max None w k n i o) (mkVq items max (Some x) w k n i o)
(* put by a thread that was waiting *)
| vq_woken_room x items max w k n i o :
    (length items < max)%nat ->
    vq_step (mkVq items max None w (S k) n i o) (mkVq items max (Some x) w k n i o)
(* put, line 157-159, 161-163: full, wait *)
| vq_put_wait items max w k n i o :
    (max <= length items)%nat ->
    vq_step (mkVq items max None w k n i o) (mkVq items max None (S w) k n i o)
| vq_woken_wait items max w k n i o :
    (max <= length items)%nat ->
    vq_step (mkVq items max None w (S k) n i o) (mkVq items max None (S w) k n i o)
(* put, lines 146, 162, 165: full and the time is over (queue.Full is raised); a put
   with block=False that raises changes nothing *)
| vq_woken_full items max w k n i o :
    (max <= length items)%nat ->
    vq_step (mkVq items max None w (S k) n i o) (mkVq items max None w k n i o)
(* the time of a waiting thread is over *)
| vq_timeout items max p w k n i o :
    vq_step (mkVq items max p (S w) k n i o) (mkVq items max p w (S k) n i o)
(* put, lines 147 and 168: super().put(item, block=False), releasing self._cond *)
| vq_put_done x items max w k n i o :
    vq_step (mkVq items max (Some x) w k n i o) (mkVq (items ++ [x]) max None w k n (i ++ [x]) o)
(* get, line 171: super().get *)
| vq_get x items max p w k n i o :
    vq_step (mkVq (x :: items) max p w k n i o) (mkVq items max p w k (S n) i (o ++ [x]))
(* get, lines 172-173: notify one waiting thread, if any *)
| vq_notify_one items max w k n i o :
    vq_step (mkVq items max None w k (S n) i o)
            (mkVq items max None (pred w) (match w with O => k | S _ => S k end) n i o)
(* set_max_size, lines 121-124 *)
| vq_set_max m items max w k n i o :
    vq_step (mkVq items max None w k n i o) (mkVq items m None 0 (w + k) n i o).

(** * VariableSizeMultiprocessingQueue, variable_size_queue.py:25-110. *)

(** What the holder of self._resize_lock is doing. *)
Inductive resizing : Type :=
| Unlocked
| Growing (target : nat) (released todo : nat)  (* set_max_size, lines 67-69 *)
| Shrinking (todo : nat).                        (* set_max_size, lines 74-78 *)

(** [mq_sem]: the semaphore; [mq_pending]: _pending_shrink; [mq_putting]: puts that
    have acquired the semaphore and not yet added their element (multiprocessing.
    queues.Queue.put acquires self._sem, then appends); [mq_getting]: gets that have
    received an element and not yet done lines 104-108; [mq_in], [mq_out]: history. *)
Record mq (A : Type) := mkMq {
  mq_items : list A;
  mq_max : nat;
  mq_sem : nat;
  mq_pending : nat;
  mq_putting : nat;
  mq_getting : nat;
  mq_lock : resizing;
  mq_in : list A;
  mq_out : list A;
}.
Arguments mkMq {A}. Arguments mq_items {A}. Arguments mq_max {A}. Arguments mq_sem {A}.
Arguments mq_pending {A}. Arguments mq_putting {A}. Arguments mq_getting {A}.
Arguments mq_lock {A}. Arguments mq_in {A}. Arguments mq_out {A}.

(** __init__, variable_size_queue.py:28-37. *)
Definition mq_init {A} (max_size : nat) : mq A := mkMq [] max_size max_size 0 0 0 Unlocked [] [].

(** One atomic step of any process.  Puts do not take self._resize_lock. *)
Inductive mq_step {A} : mq A -> mq A -> Prop :=
(* Queue.put: self._sem.acquire *)
| mq_put_acquire items max s p u g l i o :
    mq_step (mkMq items max (S s) p u g l i o) (mkMq items max s p (S u) g l i o)
(* Queue.put: the element enters the queue *)
| mq_put_add x items max s p u g l i o :
    mq_step (mkMq items max s p (S u) g l i o) (mkMq (items ++ [x]) max s p u g l (i ++ [x]) o)
(* get, lines 88-102: _recv_bytes *)
| mq_get_recv x items max s p u g l i o :
    mq_step (mkMq (x :: items) max s p u g l i o) (mkMq items max s p u (S g) l i (o ++ [x]))
(* get, lines 105-108 *)
| mq_get_done items max s p u g i o :
    mq_step (mkMq items max s p u (S g) Unlocked i o)
            (match p with
             | S p' => mkMq items max s p' u g Unlocked i o
             | O => mkMq items max (S s) p u g Unlocked i o
             end)
(* set_max_size, lines 65-67: delta > 0 *)
| mq_grow m items max s p u g i o :
    (max < m)%nat ->
    mq_step (mkMq items max s p u g Unlocked i o) (mkMq items max s p u g (Growing m 0 (m - max)) i o)
| mq_grow_release m r t items max s p u g i o :
    mq_step (mkMq items max s p u g (Growing m r (S t)) i o) (mkMq items max (S s) p u g (Growing m (S r) t) i o)
| mq_grow_done m r items max s p u g i o :
    mq_step (mkMq items max s p u g (Growing m r 0) i o) (mkMq items m s p u g Unlocked i o)
(* set_max_size, lines 70-72: delta < 0 *)
| mq_shrink m items max s p u g i o :
    (m < max)%nat ->
    mq_step (mkMq items max s p u g Unlocked i o)
            (mkMq items m s (p + (max - m)) u g (Shrinking (max - m)) i o)
| mq_shrink_acquire t items max s p u g i o :
    mq_step (mkMq items max (S s) p u g (Shrinking (S t)) i o)
            (mkMq items max s (pred p) u g (Shrinking t) i o)
| mq_shrink_break t items max p u g i o :
    mq_step (mkMq items max 0 p u g (Shrinking (S t)) i o) (mkMq items max 0 p u g Unlocked i o)
| mq_shrink_done items max s p u g i o :
    mq_step (mkMq items max s p u g (Shrinking 0) i o) (mkMq items max s p u g Unlocked i o).

(** Executions of a transition system. *)
Inductive steps {S : Type} (step : S -> S -> Prop) : S -> S -> Prop :=
| steps_refl s : steps step s s
| steps_cons s s' s'' : steps step s s' -> step s' s'' -> steps step s s''.
