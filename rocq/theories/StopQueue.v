(** Model of grain/_src/python/ipc/queue.py: the loops with which threads add to a queue, take from it and wait for results until
    they are told to stop. *)
From Verif Require Import Base.

Section StopQueue.
Context {T : Type}.

(** Calls of add_element_to_queue (queue.py:36-58), get_element_from_queue (61-71) and get_async_result (74-84; [job] names the
    AsyncResult). *)
Inductive call : Type := CAdd (element : T) | CGet | CAsync (job : nat).
(** What they return: True, False, an element, the result of a job, SYSTEM_TERMINATED.  A job that raises an exception is not
    modelled. *)
Inductive outcome : Type := Added | NotAdded | Got (x : T) | Result (x : T) | Terminated.
(** Where a thread is: between two calls, before should_stop() in the loop head, in put or get with its timeout. *)
Inductive place : Type := Idle | AtCheck (c : call) | InWait (c : call).
Record thread := mkThread { t_place : place; t_todo : list call }.
(** The queue (the next element first; maxsize 0 means no limit), what should_stop() returns now, the results of jobs that are
    ready, the threads, and the calls that have returned with the number of the thread, in the order in which they returned. *)
Record world := mkWorld {
  w_queue : list T; w_maxsize : nat; w_stop : bool; w_ready : list (nat * T);
  w_threads : list thread; w_log : list (nat * call * outcome) }.

Definition full (w : world) : bool := negb (Nat.eqb (w_maxsize w) 0) && Nat.leb (w_maxsize w) (length (w_queue w)).
Definition result_of (w : world) (job : nat) : option T :=
  match find (fun r => Nat.eqb (fst r) job) (w_ready w) with Some r => Some (snd r) | None => None end.
Fixpoint update (i : nat) (t : thread) (l : list thread) : list thread :=
  match l, i with [], _ => [] | _ :: l, O => t :: l | y :: l, S i => y :: update i t l end.
(** Thread [i] goes to [p]. *)
Definition goes (w : world) (i : nat) (p : place) (todo : list call) : world :=
  mkWorld (w_queue w) (w_maxsize w) (w_stop w) (w_ready w) (update i (mkThread p todo) (w_threads w)) (w_log w).
(** The call of thread [i] returns [o], and the queue is [q]. *)
Definition returns (w : world) (i : nat) (c : call) (o : outcome) (q : list T) (todo : list call) : world :=
  mkWorld q (w_maxsize w) (w_stop w) (w_ready w) (update i (mkThread Idle todo) (w_threads w)) (w_log w ++ [(i, c, o)]).

(** What can happen: a thread goes on; its timeout passes (a queue between processes can raise Full or Empty although there is room
    or an element, so this can happen at any time); should_stop() changes; a job becomes ready. *)
Inductive action : Type := AStep (i : nat) | ATimeout (i : nat) | AStop (b : bool) | AReady (job : nat) (x : T).
Definition step (w : world) (a : action) : world :=
  match a with
  | AStep i =>
      match nth_error (w_threads w) i with
      | None => w
      | Some t =>
          match t_place t with
          | Idle => match t_todo t with [] => w | c :: todo => goes w i (AtCheck c) todo end
          | AtCheck c =>                                              (* while not should_stop() *)
              if w_stop w then returns w i c (match c with CAdd _ => NotAdded | _ => Terminated end) (w_queue w) (t_todo t)
              else goes w i (InWait c) (t_todo t)
          | InWait c =>
              match c with
              | CAdd e => if full w then goes w i (AtCheck c) (t_todo t) else returns w i c Added (w_queue w ++ [e]) (t_todo t)
              | CGet => match w_queue w with [] => goes w i (AtCheck c) (t_todo t) | x :: q => returns w i c (Got x) q (t_todo t) end
              | CAsync job => match result_of w job with
                              | None => goes w i (AtCheck c) (t_todo t)
                              | Some x => returns w i c (Result x) (w_queue w) (t_todo t)
                              end
              end
          end
      end
  | ATimeout i =>
      match nth_error (w_threads w) i with
      | Some t => match t_place t with InWait c => goes w i (AtCheck c) (t_todo t) | _ => w end
      | None => w
      end
  | AStop b => mkWorld (w_queue w) (w_maxsize w) b (w_ready w) (w_threads w) (w_log w)
  | AReady job x => mkWorld (w_queue w) (w_maxsize w) (w_stop w) (w_ready w ++ [(job, x)]) (w_threads w) (w_log w)
  end.
Definition run (w : world) (acts : list action) : world := fold_left step acts w.
Definition start (maxsize : nat) (programs : list (list call)) : world :=
  mkWorld [] maxsize false [] (map (mkThread Idle) programs) [].
End StopQueue.
Arguments call : clear implicits. Arguments outcome : clear implicits. Arguments world : clear implicits. Arguments action : clear implicits.
Arguments place : clear implicits. Arguments thread : clear implicits.
