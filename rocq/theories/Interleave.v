(** Model of grain/_src/python/dataset/transformations/interleave.py:34-438. *)
From Verif Require Import Base MapDatasets Iter.

(** An iterator of one of the interleaved datasets, as made by
    _add_prefetch_and_make_iterator (interleave.py:441-498: to_iter_dataset for a MapDataset, a
    ThreadPrefetchIterDataset otherwise).  All of them have the same Coq types of states [S]
    and checkpoints [C] (Python objects); see [embed] for iterators with different types. *)
Record hiter (S C A : Type) := mkH {
  h_init : S;
  h_next : nat -> S -> out A * S;
  h_get : S -> C;
  h_set : nat -> S -> C -> res S;
  h_json : C -> C;
}.
Arguments mkH {S C A}. Arguments h_init {S C A}. Arguments h_next {S C A}. Arguments h_get {S C A}.
Arguments h_set {S C A}. Arguments h_json {S C A}.

(** Keys of _future_states: integers; JSON makes strings of them. *)
Inductive fkey : Type := KInt (i : nat) | KStr (i : nat).
Definition fkey_eqb (a b : fkey) : bool :=
  match a, b with KInt i, KInt j => Nat.eqb i j | KStr i, KStr j => Nat.eqb i j | _, _ => false end.
Definition fdict (C : Type) := list (fkey * C).
Definition fd_get {C} (k : fkey) (d : fdict C) : option C :=
  match find (fun kv => fkey_eqb (fst kv) k) d with Some kv => Some (snd kv) | None => None end.
Definition fd_pop {C} (k : fkey) (d : fdict C) : fdict C := filter (fun kv => negb (fkey_eqb (fst kv) k)) d.

(** InterleaveDatasetIterator attributes, interleave.py:37-94.  An iterator object in a slot
    carries the number of the dataset it was made from. [il_pf]: the next index of
    _prefetch_ds_iter, which makes the iterators of the datasets one after the other (its
    prefetching is transparent, see C30).  [il_kept]: _exhausted_iterators. *)
Record il (S C : Type) := mkIl {
  il_nc : nat;                       (* _next_index_in_cycle *)
  il_nd : nat;                       (* _next_index_in_datasets *)
  il_idx : list nat;                 (* _iterators_in_use_indices *)
  il_its : list (option (nat * S));  (* _iterators_in_use *)
  il_exh : list (option C);          (* _exhausted_iterator_state *)
  il_kept : list (option (nat * (nat * S)));
  il_fut : fdict C;                  (* _future_states *)
  il_pf : nat;
  il_started : bool;
}.
Arguments mkIl {S C}. Arguments il_nc {S C}. Arguments il_nd {S C}. Arguments il_idx {S C}. Arguments il_its {S C}.
Arguments il_exh {S C}. Arguments il_kept {S C}. Arguments il_fut {S C}. Arguments il_pf {S C}. Arguments il_started {S C}.

(** The dictionary returned by get_state, interleave.py:205-213. *)
Record ilck (C : Type) := mkCk {
  ck_nc : nat; ck_nd : nat; ck_idx : list nat; ck_states : list (option C); ck_exh : list bool; ck_fut : fdict C }.
Arguments mkCk {C}. Arguments ck_nc {C}. Arguments ck_nd {C}. Arguments ck_idx {C}. Arguments ck_states {C}.
Arguments ck_exh {C}. Arguments ck_fut {C}.

Section Interleave.
Context {S C A : Type}.
(** [datasets]; [cycle_length]; [keep]: _keep_iterators_after_stop_iteration; [truthy]: the
    truth value of the state of a dataset's iterator (an empty dictionary is false). *)
Variable ds : list (hiter S C A).
Variable cycle_length : nat.
Variable keep : bool.
Variable truthy : C -> bool.

(** self._cycle_length = min(cycle_length, len(datasets)), interleave.py:77. *)
Definition cl : nat := Nat.min cycle_length (length ds).

(** __init__, interleave.py:37-94. *)
Definition il_init : il S C :=
  mkIl 0 0 (seq 0 cl) (List.repeat None cl) (List.repeat None cl) (List.repeat None cl) [] 0 false.

(** next(self._prefetch_ds_iter): a fresh iterator of the next dataset, or StopIteration. *)
Definition make_next (s : il S C) : option (nat * S) :=
  match nth_error ds (il_pf s) with Some h => Some (il_pf s, h_init h) | None => None end.

(** (self._next_index_in_cycle + 1) % self._cycle_length *)
Definition succ_cycle (nc : nat) : nat := ((nc + 1) mod cl)%nat.

Definition is_some {X} (o : option X) : bool := match o with Some _ => true | None => false end.

(** __next__, interleave.py:96-172.  [fuel] counts the rounds of the while loop, [fuel0] is
    given to the datasets' iterators. *)
Fixpoint il_loop (fuel0 fuel : nat) (s : il S C) : out A * il S C :=
  match fuel with
  | O => (NoFuel, s)
  | Datatypes.S fuel' =>
      let nc := il_nc s in
      match nth_error (il_its s) nc with
      | None => (Fail IndexError, s)
      | Some (Some (d, it)) =>
          match nth_error ds d with
          | None => (Fail InternalError, s)
          | Some h =>
              match h_next h fuel0 it with
              | (Yield a, it') =>
                  (Yield a, mkIl (succ_cycle nc) (il_nd s) (il_idx s) (update_nth nc (Some (d, it')) (il_its s))
                                 (il_exh s) (il_kept s) (il_fut s) (il_pf s) (il_started s))
              | (Stop, it') =>
                  il_loop fuel0 fuel'
                    (mkIl (succ_cycle nc) (il_nd s) (il_idx s) (update_nth nc None (il_its s))
                          (update_nth nc (Some (h_get h it')) (il_exh s))
                          (if keep then update_nth nc (Some (nth nc (il_idx s) 0%nat, (d, it'))) (il_kept s) else il_kept s)
                          (il_fut s) (il_pf s) (il_started s))
              | (o, it') =>
                  (o, mkIl nc (il_nd s) (il_idx s) (update_nth nc (Some (d, it')) (il_its s))
                           (il_exh s) (il_kept s) (il_fut s) (il_pf s) (il_started s))
              end
          end
      | Some None =>
          if Nat.ltb (il_nd s) (length ds) then
            match make_next s with
            | None => (Stop, s)
            | Some (d, it) =>
                let nd := il_nd s in
                let s1 it fut :=
                  mkIl nc (nd + 1) (update_nth nc nd (il_idx s)) (update_nth nc (Some (d, it)) (il_its s))
                       (update_nth nc None (il_exh s)) (il_kept s) fut (il_pf s + 1)%nat (il_started s) in
                match fd_get (KInt nd) (il_fut s), nth_error ds d with
                | Some c, Some h =>
                    match h_set h fuel0 it c with
                    | Ok it' => il_loop fuel0 fuel' (s1 it' (fd_pop (KInt nd) (il_fut s)))
                    | Raise e => (Fail e, s1 it (fd_pop (KInt nd) (il_fut s)))
                    | OutOfFuel => (NoFuel, s)
                    end
                | _, _ => il_loop fuel0 fuel' (s1 it (il_fut s))
                end
            end
          else if existsb is_some (il_its s) then
            il_loop fuel0 fuel'
              (mkIl (succ_cycle nc) (il_nd s) (il_idx s) (il_its s) (il_exh s) (il_kept s) (il_fut s) (il_pf s) (il_started s))
          else (Stop, s)
      end
  end.
Definition il_next (fuel : nat) (s : il S C) : out A * il S C :=
  il_loop fuel fuel
    (mkIl (il_nc s) (il_nd s) (il_idx s) (il_its s) (il_exh s) (il_kept s) (il_fut s) (il_pf s) true).

(** get_state, interleave.py:174-214.  It makes the iterators of slots that have not been used
    yet, so it changes the iterator: the second component is the iterator afterwards.
    [il_get_slots i n s] handles the slots [i .. i+n-1]. *)
Fixpoint il_get_slots (i n : nat) (s : il S C) : res (list (option C) * il S C) :=
  match n with
  | O => Ok ([], s)
  | Datatypes.S n' =>
      match nth_error (il_its s) i, nth_error (il_exh s) i with
      | Some (Some (d, it)), _ =>
          match nth_error ds d with
          | None => Raise InternalError
          | Some h => let! (cs, s') := il_get_slots (i + 1) n' s in Ok (Some (h_get h it) :: cs, s')
          end
      | Some None, Some (Some c) => let! (cs, s') := il_get_slots (i + 1) n' s in Ok (Some c :: cs, s')
      | Some None, Some None =>
          if Nat.leb (length ds) (il_nd s) then Ok (List.repeat None n, s)
          else
            let made := if il_started s then make_next s
                        else match nth_error ds (il_nd s) with Some h => Some (il_nd s, h_init h) | None => None end in
            match made with
            | None => Raise InternalError
            | Some (d, it) =>
                match nth_error ds d with
                | None => Raise InternalError
                | Some h =>
                    let s1 := mkIl (il_nc s) (il_nd s + 1) (update_nth i (il_nd s) (il_idx s))
                                   (update_nth i (Some (d, it)) (il_its s)) (il_exh s) (il_kept s) (il_fut s)
                                   (if il_started s then il_pf s + 1 else il_pf s)%nat (il_started s) in
                    let! (cs, s') := il_get_slots (i + 1) n' s1 in Ok (Some (h_get h it) :: cs, s')
                end
            end
      | _, _ => Raise IndexError
      end
  end.
Definition il_get (s : il S C) : res (ilck C * il S C) :=
  let! (cs, s) := il_get_slots 0 cl s in
  let s := if il_started s then s
           else mkIl (il_nc s) (il_nd s) (il_idx s) (il_its s) (il_exh s) (il_kept s) (il_fut s) (il_nd s) false in
  Ok (mkCk (il_nc s) (il_nd s) (il_idx s) cs (map is_some (il_exh s)) (il_fut s), s).

(** set_state, interleave.py:256-301: the loop over the slots, from slot [k]. *)
Fixpoint il_set_slots (fuel k : nat) (entries : list (nat * option C)) (exh : list bool) (s : il S C) : res (il S C) :=
  match entries with
  | [] => Ok s
  | (d, None) :: rest =>
      if Nat.ltb k (length (il_its s)) then
        il_set_slots fuel (k + 1) rest exh
          (mkIl (il_nc s) (il_nd s) (il_idx s) (update_nth k None (il_its s)) (il_exh s) (il_kept s) (il_fut s) (il_pf s) (il_started s))
      else Raise IndexError
  | (d, Some c) :: rest =>
      match nth_error exh k, nth_error (il_its s) k with
      | Some false, Some cur =>
          let same := Nat.eqb d (nth k (il_idx s) 0%nat) in
          let kept := nth k (il_kept s) None in
          let! (it, kept') :=
            match cur with
            | Some it => if same then Ok (it, il_kept s)
                         else match keep, kept with
                              | true, Some (d', it') =>
                                  if Nat.eqb d' d then Ok (it', update_nth k None (il_kept s))
                                  else match nth_error ds d with Some h => Ok ((d, h_init h), il_kept s) | None => Raise IndexError end
                              | _, _ => match nth_error ds d with Some h => Ok ((d, h_init h), il_kept s) | None => Raise IndexError end
                              end
            | None => match keep, kept with
                      | true, Some (d', it') =>
                          if Nat.eqb d' d then Ok (it', update_nth k None (il_kept s))
                          else match nth_error ds d with Some h => Ok ((d, h_init h), il_kept s) | None => Raise IndexError end
                      | _, _ => match nth_error ds d with Some h => Ok ((d, h_init h), il_kept s) | None => Raise IndexError end
                      end
            end in
          match nth_error ds (fst it) with
          | None => Raise InternalError
          | Some h =>
              let! st := if truthy c then h_set h fuel (snd it) c else Ok (snd it) in
              il_set_slots fuel (k + 1) rest exh
                (mkIl (il_nc s) (il_nd s) (il_idx s) (update_nth k (Some (fst it, st)) (il_its s)) (il_exh s) kept'
                      (il_fut s) (il_pf s) (il_started s))
          end
      | Some true, Some _ =>
          il_set_slots fuel (k + 1) rest exh
            (mkIl (il_nc s) (il_nd s) (il_idx s) (update_nth k None (il_its s)) (update_nth k (Some c) (il_exh s))
                  (il_kept s) (il_fut s) (il_pf s) (il_started s))
      | _, _ => Raise IndexError
      end
  end.
Definition il_set (fuel : nat) (s : il S C) (c : ilck C) : res (il S C) :=
  let! s := il_set_slots fuel 0 (combine (ck_idx c) (ck_states c)) (ck_exh c) s in
  Ok (mkIl (ck_nc c) (ck_nd c) (ck_idx c) (il_its s) (il_exh s) (il_kept s) (ck_fut c) (ck_nd c) (il_started s)).

(** json.loads(json.dumps(state)). *)
Definition il_json (json : nat -> C -> C) (c : ilck C) : ilck C :=
  mkCk (ck_nc c) (ck_nd c) (ck_idx c)
       (map (fun dc => option_map (json (fst dc)) (snd dc)) (combine (ck_idx c) (ck_states c)))
       (ck_exh c)
       (map (fun kv => match fst kv with KInt i => (KStr i, json i (snd kv)) | KStr i => (KStr i, json i (snd kv)) end) (ck_fut c)).

(** The iterator with checkpoints as values, where get_state is taken without its effect on
    the iterator.  (C35_history has get_state with its effect. Sharing between checkpoints and
    the iterator: see [heap_il] below.) *)
Definition interleave_it : Iter A :=
  {| ist := il S C; ick := res (ilck C); init := il_init;
     next := il_next;
     get_state := fun s => let! (c, _) := il_get s in Ok c;
     set_state := fun fuel s c => let! c := c in il_set fuel s c;
     jsonck := fun c => let! c := c in Ok (il_json (fun d => match nth_error ds d with Some h => h_json h | None => fun x => x end) c) |}.

(** get_shard_states, interleave.py:211-252: one (exhausted, state) per dataset.
    _get_iterator_start_state (interleave.py:428-438) is the state of a fresh iterator. *)
Definition start_state (i : nat) : option C :=
  match nth_error ds i with Some h => Some (h_get h (h_init h)) | None => None end.
Definition il_get_shards (s : il S C) : res (list (bool * option C)) :=
  let! (c, s) := il_get s in
  let base := map (fun i =>
      if Nat.leb (ck_nd c) i then
        match fd_get (KInt i) (il_fut s) with Some f => (false, Some f) | None => (false, start_state i) end
      else (true, start_state i)) (seq 0 (length ds)) in
  Ok (fold_left (fun l e => update_nth (fst (fst e)) (snd e, snd (fst e)) l)
        (combine (combine (ck_idx c) (ck_states c)) (ck_exh c)) base).

(** set_shard_states, interleave.py:303-346: the state given to set_state.  States are never
    None here. *)
Definition shards_ck (shards : list (bool * C)) : ilck C :=
  let numbered := combine (seq 0 (length shards)) shards in
  let active := filter (fun e => negb (fst (snd e))) numbered in
  let in_use := firstn cl active in
  let later := skipn cl active in
  let future := map (fun e => (KInt (fst e), snd (snd e))) (filter (fun e => truthy (snd (snd e))) later) in
  let nd := match in_use with [] => 0%nat | _ => (list_max (map fst in_use) + 1)%nat end in
  let fill := firstn (cl - length in_use) (filter (fun e => fst (snd e)) numbered) in
  mkCk 0 nd (map fst in_use ++ map fst fill) (map (fun e => Some (snd (snd e))) (in_use ++ fill))
       (map (fun _ => false) in_use ++ map (fun _ => true) fill) future.
Definition il_set_shards (fuel : nat) (s : il S C) (shards : list (bool * C)) : res (il S C) :=
  il_set fuel s (shards_ck shards).

(** ** Sharing of mutable objects *)

(** set_state keeps the caller's list (interleave.py:300: self._iterators_in_use_indices =
    state["iterators_in_use_indices"]) and writes to it later (line 144); get_state hands out
    self._future_states itself (line 213), from which __next__ pops (line 153).  [lists] and
    [dicts] are the objects, [r_idx] and [r_fut] the iterator's references; a checkpoint is
    the rest of the dictionary and two references. *)
Record heap_il := mkHeap { hp_lists : list (list nat); hp_dicts : list (fdict C); r_idx : nat; r_fut : nat; hp_il : il S C }.
Definition heap_init : heap_il := mkHeap [il_idx il_init] [[]] 0 0 il_init.
Definition with_objects (hs : heap_il) : il S C :=
  let s := hp_il hs in
  mkIl (il_nc s) (il_nd s) (nth (r_idx hs) (hp_lists hs) []) (il_its s) (il_exh s) (il_kept s)
       (nth (r_fut hs) (hp_dicts hs) []) (il_pf s) (il_started s).
Definition write_back (hs : heap_il) (s : il S C) : heap_il :=
  mkHeap (update_nth (r_idx hs) (il_idx s) (hp_lists hs)) (update_nth (r_fut hs) (il_fut s) (hp_dicts hs)) (r_idx hs) (r_fut hs) s.
Definition heap_next (fuel : nat) (hs : heap_il) : out A * heap_il :=
  let (o, s) := il_next fuel (with_objects hs) in (o, write_back hs s).
Record heap_ck := mkHck { hc_idx : nat; hc_fut : nat; hc_rest : ilck C }.
Definition heap_get (hs : heap_il) : res (heap_ck * heap_il) :=
  let! (c, s) := il_get (with_objects hs) in
  let hs := write_back hs s in
  Ok (mkHck (length (hp_lists hs)) (r_fut hs) c,
      mkHeap (hp_lists hs ++ [ck_idx c]) (hp_dicts hs) (r_idx hs) (r_fut hs) (hp_il hs)).
Definition heap_set (fuel : nat) (hs : heap_il) (c : heap_ck) : res heap_il :=
  let r := hc_rest c in
  let c' := mkCk (ck_nc r) (ck_nd r) (nth (hc_idx c) (hp_lists hs) []) (ck_states r) (ck_exh r) (nth (hc_fut c) (hp_dicts hs) []) in
  let! s := il_set fuel (with_objects hs) c' in
  Ok (mkHeap (hp_lists hs) (hp_dicts hs) (hc_idx c) (hc_fut c) s).
End Interleave.
Arguments heap_il : clear implicits. Arguments heap_ck : clear implicits.

(** ** Iterators with different types *)

(** Any list of iterators: a state (or a checkpoint) is tagged with the number of its
    dataset.  Giving an iterator the state of another dataset's iterator is an error here; in
    Python anything may happen. *)
Definition nth_it {A} (ps : list (Iter A)) (d : nat) : Iter A :=
  nth d ps {| ist := unit; ick := unit; init := tt; next := fun _ s => (Stop, s); get_state := fun s => s;
              set_state := fun _ _ c => Ok c; jsonck := fun c => c |}.
Definition cast {X : nat -> Type} (d : nat) (x : {e : nat & X e}) : option (X d) :=
  match Nat.eq_dec (projT1 x) d with
  | left e => Some (eq_rect _ X (projT2 x) _ e)
  | right _ => None
  end.
Definition embed1 {A} (ps : list (Iter A)) (d : nat)
  : hiter {e : nat & ist (nth_it ps e)} {e : nat & ick (nth_it ps e)} A :=
  {| h_init := existT _ d (init (nth_it ps d));
     h_next := fun fuel s =>
       match cast d s with
       | Some x => let (o, x') := next (nth_it ps d) fuel x in (o, existT _ d x')
       | None => (Fail TypeError, s)
       end;
     h_get := fun s => match cast d s with Some x => existT _ d (get_state (nth_it ps d) x)
                                         | None => existT _ d (get_state (nth_it ps d) (init (nth_it ps d))) end;
     h_set := fun fuel s c =>
       match cast d s, cast d c with
       | Some x, Some y => let! x' := set_state (nth_it ps d) fuel x y in Ok (existT _ d x')
       | _, _ => Raise TypeError
       end;
     h_json := fun c => match cast d c with Some y => existT _ d (jsonck (nth_it ps d) y) | None => c end |}.
Definition embed {A} (ps : list (Iter A)) := map (embed1 ps) (seq 0 (length ps)).
(** InterleaveIterDataset over any datasets, interleave.py:501-560. *)
Definition interleave {A} (ps : list (Iter A)) (cycle_length : nat) (keep : bool)
    (truthy : {e : nat & ick (nth_it ps e)} -> bool) : Iter A :=
  interleave_it (embed ps) cycle_length keep truthy.
