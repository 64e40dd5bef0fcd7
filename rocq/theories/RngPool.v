(** Model of the pool of random generators of random_map
    (grain/_src/python/dataset/transformations/map.py:29-71, 202-215, 330-384). *)
From Verif Require Import Base.

(** The state dictionary of a numpy Generator over a Philox bit generator.  [K] is
    the type of keys ([state["state"]["key"]]). *)
Record gen (K : Type) := mkGen {
  g_key : K;
  g_counter : list Z;
  g_buffer : list Z;
  g_buffer_pos : Z;
  g_has_uint32 : Z;
  g_uinteger : Z;
}.
Arguments mkGen {K}. Arguments g_key {K}.

(** _reset_rng_state, map.py:36-45: everything but the key is overwritten.
    (Indices and seeds outside uint64 are not modelled.) *)
Definition reset_rng_state {K} (rng : gen K) (op_seed index : Z) : gen K :=
  mkGen (g_key rng) [0; 0; op_seed; index] [0; 0; 0; 0] 4 0 0.

(** What a thread is doing in _random_map_element (map.py:202-208). *)
Inductive status : Type :=
| Idle
| Popped (id : nat) (index : Z)                    (* inside acquire_rng, line 61-65 done *)
| Calling (id : nat) (index : Z) (drawn : list Z). (* inside the user's function *)

(** The generator objects created so far ([objs id], ids below [fresh]), the cache
    of the pool and the threads. *)
Record pool (K : Type) := mkPool {
  objs : nat -> gen K;
  fresh : nat;
  cache : list nat;
  threads : nat -> status;
}.
Arguments mkPool {K}. Arguments objs {K}. Arguments fresh {K}. Arguments cache {K}. Arguments threads {K}.

Definition upd {V} (f : nat -> V) (i : nat) (v : V) : nat -> V :=
  fun j => if Nat.eqb j i then v else f j.

(** RngPool.__init__, map.py:51-54. *)
Definition pool0 {K} (g : gen K) : pool K := mkPool (fun _ => g) 0 [] (fun _ => Idle).

(** One atomic step of a thread.  [philox] is np.random.Generator(np.random.Philox(
    self._seed)), [draw] what one call of a generator method does (a new state and
    a value).  The bodies of the [with self._lock] blocks are atomic; everything
    else is interleaved. *)
Inductive rng_step {K} (philox : gen K) (draw : gen K -> gen K * Z) : pool K -> pool K -> Prop :=
(* acquire_rng, lines 61-63: a cached generator ([list.pop] takes the last) *)
| step_pop t index s ids id :
    threads s t = Idle -> cache s = ids ++ [id] ->
    rng_step philox draw s (mkPool (objs s) (fresh s) ids (upd (threads s) t (Popped id index)))
(* acquire_rng, lines 64-65: a new one *)
| step_new t index s :
    threads s t = Idle -> cache s = [] ->
    rng_step philox draw s (mkPool (upd (objs s) (fresh s) philox) (S (fresh s)) []
                                   (upd (threads s) t (Popped (fresh s) index)))
(* acquire_rng, lines 66-67 *)
| step_reset t id index s :
    threads s t = Popped id index ->
    rng_step philox draw s (mkPool (upd (objs s) id (reset_rng_state (objs s id) 0 index)) (fresh s) (cache s)
                                   (upd (threads s) t (Calling id index [])))
(* the user's function draws a value from its generator *)
| step_draw t id index vs s :
    threads s t = Calling id index vs ->
    rng_step philox draw s (mkPool (upd (objs s) id (fst (draw (objs s id)))) (fresh s) (cache s)
                                   (upd (threads s) t (Calling id index (vs ++ [snd (draw (objs s id))]))))
(* release_rng, lines 69-71 *)
| step_release t id index vs s :
    threads s t = Calling id index vs ->
    rng_step philox draw s (mkPool (objs s) (fresh s) (cache s ++ [id]) (upd (threads s) t Idle))
(* the user's function raises: the generator is not released *)
| step_raise t id index vs s :
    threads s t = Calling id index vs ->
    rng_step philox draw s (mkPool (objs s) (fresh s) (cache s) (upd (threads s) t Idle)).

(** States reachable by any interleaving of any number of threads. *)
Inductive rng_reach {K} (philox : gen K) (draw : gen K -> gen K * Z) : pool K -> Prop :=
| reach_init : rng_reach philox draw (pool0 philox)
| reach_step s s' : rng_reach philox draw s -> rng_step philox draw s s' -> rng_reach philox draw s'.

(** _RandomMapDatasetIterator, map.py:346-372: one generator, reset before every
    call; [uses] are the numbers of values drawn by the earlier calls (at any
    indices). *)
Fixpoint draws {K} (draw : gen K -> gen K * Z) (n : nat) (g : gen K) : gen K * list Z :=
  match n with
  | O => (g, [])
  | S n' => let (g', v) := draw g in let (g'', vs) := draws draw n' g' in (g'', v :: vs)
  end.
Fixpoint iterator_rng {K} (draw : gen K -> gen K * Z) (g : gen K) (uses : list (Z * nat)) : gen K :=
  match uses with
  | [] => g
  | (index, n) :: uses' => iterator_rng draw (fst (draws draw n (reset_rng_state g 0 index))) uses'
  end.
