(** Model of DatasetIterator and of the iterator transformations
    (grain/_src/python/dataset/dataset.py and transformations/ *.py, the
    [*DatasetIterator] classes).

    Statistics, tracing and element specs are not modelled.  Elements that the
    code may compare with None have type [option A]; transformations that do not
    look at their elements work on any type.  Checkpoints are values: sharing of
    mutable Python objects between a checkpoint and the iterator is not modelled
    here (see Interleave.v, where it matters). *)
From Verif Require Import Base IndexShuffle MapDatasets.

(** Outcome of [__next__].  [NoFuel] is not a Python outcome: the loop has not
    finished within the fuel given to the model. *)
Inductive out (A : Type) : Type :=
| Yield (a : A)
| Stop                (* StopIteration *)
| Fail (e : exn)
| NoFuel.
Arguments Yield {A}. Arguments Stop {A}. Arguments Fail {A}. Arguments NoFuel {A}.

(** DatasetIterator, dataset.py:1409-1473.  [init] is the freshly constructed
    iterator, [ist] its attributes, [ick] the values returned by [get_state],
    [jsonck] the effect of json.loads(json.dumps(state)) (dataset.py:1495, 1513,
    handler.py:47-70) on such a value. *)
Record Iter (A : Type) := mkIter {
  ist : Type;
  ick : Type;
  init : ist;
  next : nat -> ist -> out A * ist;
  get_state : ist -> ick;
  set_state : nat -> ist -> ick -> res ist;
  jsonck : ick -> ick;
}.
Arguments mkIter {A}. Arguments ist {A}. Arguments ick {A}. Arguments init {A}.
Arguments next {A}. Arguments get_state {A}. Arguments set_state {A}. Arguments jsonck {A}.

(** Continue with the element if there is one, otherwise propagate the exception. *)
Definition bindn {A B S T} (r : out A * S) (up : S -> T) (k : A -> S -> out B * T) : out B * T :=
  match r with
  | (Yield a, s) => k a s
  | (Stop, s) => (Stop, up s)
  | (Fail e, s) => (Fail e, up s)
  | (NoFuel, s) => (NoFuel, up s)
  end.

(** The outcome of returning the result of a user function. *)
Definition of_res {A} (r : res A) : out A :=
  match r with Ok a => Yield a | Raise e => Fail e | OutOfFuel => NoFuel end.

(** Not code: the same iterator with its elements read at another Coq type (for
    instance without the option around elements that are never None). *)
Definition retype {A B} (h : A -> B) (p : Iter A) : Iter B :=
  {| ist := ist p; ick := ick p; init := init p;
     next := fun fuel s => bindn (next p fuel s) (fun s' => s') (fun a s' => (Yield (h a), s'));
     get_state := get_state p; set_state := set_state p; jsonck := jsonck p |}.

(** ** map.py *)

(** _MapDatasetIterator, map.py:292-327. *)
Definition map_it {A B} (f : A -> res (option B)) (p : Iter (option A)) : Iter (option B) :=
  {| ist := ist p; ick := ick p; init := init p;
     next := fun fuel s =>
       bindn (next p fuel s) (fun s' => s') (fun e s' => (of_res (map_element f e), s'));
     get_state := get_state p; set_state := set_state p; jsonck := jsonck p |}.

(** _MapWithIndexDatasetIterator, map.py:387-429.  State: parent, _counter.  The
    counter is not advanced when the user function raises (line 407 before 408). *)
Definition map_with_index_it {A B} (f : Z -> A -> res (option B)) (p : Iter (option A)) : Iter (option B) :=
  {| ist := ist p * Z; ick := ick p * Z; init := (init p, 0);
     next := fun fuel '(s, counter) =>
       bindn (next p fuel s) (fun s' => (s', counter)) (fun e s' =>
         match map_element (f counter) e with
         | Ok b => (Yield b, (s', counter + 1))
         | r => (of_res r, (s', counter))
         end);
     get_state := fun '(s, counter) => (get_state p s, counter);
     set_state := fun fuel '(s, _) '(c, counter) =>
       let! s' := set_state p fuel s c in Ok (s', counter);
     jsonck := fun '(c, counter) => (jsonck p c, counter) |}.

(** _RandomMapDatasetIterator, map.py:330-384.  [rng index] is the generator
    state after _reset_rng_state(self._rng, op_seed=0, index=index)
    (see RngPool.v); [pi], [pc] are mp_context.process_index and process_count. *)
Definition random_map_it {A B G} (f : A -> G -> res (option B)) (rng : Z -> G) (pi pc : Z)
    (p : Iter (option A)) : Iter (option B) :=
  {| ist := ist p * Z; ick := ick p * Z; init := (init p, 0);
     next := fun fuel '(s, index_for_rng) =>
       bindn (next p fuel s) (fun s' => (s', index_for_rng)) (fun e s' =>
         match map_element (fun x => f x (rng (pi + index_for_rng * pc))) e with
         | Ok b => (Yield b, (s', index_for_rng + 1))
         | r => (of_res r, (s', index_for_rng))
         end);
     get_state := fun '(s, i) => (get_state p s, i);
     set_state := fun fuel '(s, _) '(c, i) => let! s' := set_state p fuel s c in Ok (s', i);
     jsonck := fun '(c, i) => (jsonck p c, i) |}.

(** ** filter.py *)

(** FilterThresholdChecker, filter.py:87-136.  A threshold is a fraction
    (num, den); None or 0 is [float("inf")] (lines 99-100: [x or inf]).  The float
    ratio of line 110 is compared exactly.  The warning threshold only logs and
    is not modelled. *)
Definition check_filtered_interval : Z := 1000.
Record checker := mkChecker { passed : Z; skipped : Z }.
Definition checker0 : checker := mkChecker 0 0.
Definition reaches (thr : option (Z * Z)) (skipped total : Z) : bool :=
  match thr with
  | None => false
  | Some (num, den) => negb (num =? 0) && (skipped * den >=? num * total)
  end.
Definition check (thr : option (Z * Z)) (c : checker) (pass : bool) : checker * option exn :=
  let c := if pass then mkChecker (passed c + 1) (skipped c)
           else mkChecker (passed c) (skipped c + 1) in
  if passed c + skipped c >=? check_filtered_interval then
    if reaches thr (skipped c) (passed c + skipped c) then (c, Some ValueError)
    else (checker0, None)
  else (c, None).

(** _FilterDatasetIterator.__next__, filter.py:166-181. *)
Fixpoint filter_next {A} (thr : option (Z * Z)) (f : A -> res bool) (p : Iter A)
    (fuel : nat) (s : ist p * checker) : out A * (ist p * checker) :=
  match fuel with
  | O => (NoFuel, s)
  | S fuel' =>
      bindn (next p fuel' (fst s)) (fun s' => (s', snd s)) (fun v s' =>
        match f v with
        | Ok b =>
            match check thr (snd s) b with
            | (c, Some e) => (Fail e, (s', c))
            | (c, None) => if b then (Yield v, (s', c)) else filter_next thr f p fuel' (s', c)
            end
        | r => (of_res (let! _ := r in Raise UserError), (s', snd s))
        end)
  end.
Definition filter_it {A} (thr : option (Z * Z)) (f : A -> res bool) (p : Iter A) : Iter A :=
  {| ist := ist p * checker; ick := ick p; init := (init p, checker0);
     next := filter_next thr f p;
     get_state := fun s => get_state p (fst s);
     set_state := fun fuel s c => let! s' := set_state p fuel (fst s) c in Ok (s', snd s);
     jsonck := jsonck p |}.

(** ** batch.py *)

(** The loop of _BatchDatasetIterator.__next__, batch.py:301-308, [n] iterations
    left: the values read, or the outcome that ends the call. *)
Fixpoint batch_values {A} (drop : bool) (p : Iter A) (fuel n : nat) (values : list A) (s : ist p)
  : out (list A) * ist p :=
  match n with
  | O => (Yield values, s)
  | S n' =>
      match next p fuel s with
      | (Yield a, s') => batch_values drop p fuel n' (values ++ [a]) s'
      | (Stop, s') => if drop then (Stop, s') else (Yield values, s')
      | (Fail e, s') => (Fail e, s')
      | (NoFuel, s') => (NoFuel, s')
      end
  end.

(** _BatchDatasetIterator, batch.py:283-332. *)
Definition batch_iter {A B} (batch_size : Z) (drop : bool) (batch_fn : list A -> res B) (p : Iter A) : Iter B :=
  {| ist := ist p; ick := ick p; init := init p;
     next := fun fuel s =>
       bindn (batch_values drop p fuel (Z.to_nat batch_size) [] s) (fun s' => s') (fun values s' =>
         match values with
         | [] => (Stop, s')
         | _ => (of_res (batch_fn values), s')
         end);
     get_state := get_state p; set_state := set_state p; jsonck := jsonck p |}.
(** With the constructor check of BatchIterDataset, batch.py:516-517. *)
Definition batch_it {A B} (batch_size : Z) (drop : bool) (batch_fn : list A -> res B) (p : Iter A)
  : res (Iter B) :=
  if batch_size <=? 0 then Raise ValueError else Ok (batch_iter batch_size drop batch_fn p).

(** ** limit.py *)

(** _LimitDatasetIterator, limit.py:25-61. *)
Definition limit_iter {A} (count : Z) (p : Iter A) : Iter A :=
  {| ist := ist p * Z; ick := ick p * Z; init := (init p, 0);
     next := fun fuel '(s, n) =>
       if n >=? count then (Stop, (s, n))
       else bindn (next p fuel s) (fun s' => (s', n)) (fun v s' => (Yield v, (s', n + 1)));
     get_state := fun '(s, n) => (get_state p s, n);
     set_state := fun fuel '(s, _) '(c, n) => let! s' := set_state p fuel s c in Ok (s', n);
     jsonck := fun '(c, n) => (jsonck p c, n) |}.
(** With the constructor check, limit.py:84-85. *)
Definition limit_it {A} (count : Z) (p : Iter A) : res (Iter A) :=
  if count <=? 0 then Raise ValueError else Ok (limit_iter count p).

(** ** repeat.py *)

(** _RepeatDatasetIterator.__next__, repeat.py:112-128.  [start] is
    _parent_starting_state, taken at construction (line 98). *)
Definition is_last (num_epochs : option Z) (epoch : Z) : bool :=
  match num_epochs with None => false | Some n => epoch =? n end.
Fixpoint repeat_loop {A} (num_epochs : option Z) (p : Iter A) (start : ick p) (fuel : nat)
    (s : ist p) (epoch : Z) : out A * (ist p * Z) :=
  match fuel with
  | O => (NoFuel, (s, epoch))
  | S fuel' =>
      match next p fuel' s with
      | (Yield a, s') => (Yield a, (s', epoch))
      | (Stop, s') =>
          let epoch := epoch + 1 in
          if is_last num_epochs epoch then (Stop, (s', epoch))
          else match set_state p fuel' s' start with
               | Ok s'' => repeat_loop num_epochs p start fuel' s'' epoch
               | Raise e => (Fail e, (s', epoch))
               | OutOfFuel => (NoFuel, (s', epoch))
               end
      | (Fail e, s') => (Fail e, (s', epoch))
      | (NoFuel, s') => (NoFuel, (s', epoch))
      end
  end.
(** _RepeatDatasetIterator, repeat.py:85-138, and the check of lines 155-156. *)
Definition repeat_it {A} (num_epochs : option Z) (p : Iter A) : res (Iter A) :=
  if match num_epochs with None => false | Some n => n <=? 0 end then Raise ValueError
  else Ok
  {| ist := ist p * Z; ick := ick p * Z; init := (init p, 0);
     next := fun fuel '(s, epoch) =>
       if is_last num_epochs epoch then (Stop, (s, epoch))
       else repeat_loop num_epochs p (get_state p (init p)) fuel s epoch;
     get_state := fun '(s, epoch) => (get_state p s, epoch);
     set_state := fun fuel '(s, _) '(c, epoch) => let! s' := set_state p fuel s c in Ok (s', epoch);
     jsonck := fun '(c, epoch) => (jsonck p c, epoch) |}.

(** ** Several parents: their states and checkpoints, in order. *)
Fixpoint hst {A} (ps : list (Iter A)) : Type :=
  match ps with [] => unit | p :: ps' => (ist p * hst ps')%type end.
Fixpoint hck {A} (ps : list (Iter A)) : Type :=
  match ps with [] => unit | p :: ps' => (ick p * hck ps')%type end.
Fixpoint hinit {A} (ps : list (Iter A)) : hst ps :=
  match ps with [] => tt | p :: ps' => (init p, hinit ps') end.
(** [[it.get_state() for it in self._parents]] *)
Fixpoint hget {A} (ps : list (Iter A)) : hst ps -> hck ps :=
  match ps with
  | [] => fun _ => tt
  | p :: ps' => fun s => (get_state p (fst s), hget ps' (snd s))
  end.
(** [for it, s in zip(self._parents, states): it.set_state(s)] *)
Fixpoint hset {A} (ps : list (Iter A)) (fuel : nat) : hst ps -> hck ps -> res (hst ps) :=
  match ps with
  | [] => fun _ _ => Ok tt
  | p :: ps' => fun s c =>
      let! s1 := set_state p fuel (fst s) (fst c) in
      let! s2 := hset ps' fuel (snd s) (snd c) in
      Ok (s1, s2)
  end.
Fixpoint hjson {A} (ps : list (Iter A)) : hck ps -> hck ps :=
  match ps with
  | [] => fun _ => tt
  | p :: ps' => fun c => (jsonck p (fst c), hjson ps' (snd c))
  end.
(** [next(self._parents[i])] *)
Fixpoint hnext {A} (ps : list (Iter A)) (fuel i : nat) : hst ps -> out A * hst ps :=
  match ps with
  | [] => fun s => (Fail IndexError, s)
  | p :: ps' => fun s =>
      match i with
      | O => let (o, s1) := next p fuel (fst s) in (o, (s1, snd s))
      | S i' => let (o, s2) := hnext ps' fuel i' (snd s) in (o, (fst s, s2))
      end
  end.

(** ** zip.py *)

(** The strictness check after the first parent stopped, zip.py:122-132. *)
Fixpoint zip_check_stopped {A} (ps : list (Iter A)) (fuel : nat) : hst ps -> out unit * hst ps :=
  match ps with
  | [] => fun s => (Yield tt, s)
  | p :: ps' => fun s =>
      match next p fuel (fst s) with
      | (Stop, s1) => let (o, s2) := zip_check_stopped ps' fuel (snd s) in (o, (s1, s2))
      | (Yield _, s1) => (Fail ValueError, (s1, snd s))
      | (Fail e, s1) => (Fail e, (s1, snd s))
      | (NoFuel, s1) => (NoFuel, (s1, snd s))
      end
  end.
(** The loop over the parents, zip.py:107-136; [first] is [i = 0]. *)
Fixpoint zip_pull {A} (strict first : bool) (ps : list (Iter A)) (fuel : nat)
  : hst ps -> out (list A) * hst ps :=
  match ps with
  | [] => fun s => (Yield [], s)
  | p :: ps' => fun s =>
      match next p fuel (fst s) with
      | (Yield a, s1) =>
          let (o, s2) := zip_pull strict false ps' fuel (snd s) in
          (match o with
           | Yield l => Yield (a :: l) | Stop => Stop | Fail e => Fail e | NoFuel => NoFuel
           end, (s1, s2))
      | (Stop, s1) =>
          if strict then
            if first then
              let (o, s2) := zip_check_stopped ps' fuel (snd s) in
              (match o with
               | Yield _ => Stop | Stop => Stop | Fail e => Fail e | NoFuel => NoFuel
               end, (s1, s2))
            else (Fail ValueError, (s1, snd s))
          else (Stop, (s1, snd s))
      | (Fail e, s1) => (Fail e, (s1, snd s))
      | (NoFuel, s1) => (NoFuel, (s1, snd s))
      end
  end.
(** _ZipDatasetIterator, zip.py:90-146, and the check of lines 70-71. *)
Definition zip_it {A} (strict : bool) (ps : list (Iter A)) : res (Iter (list A)) :=
  match ps with
  | [] => Raise ValueError
  | _ => Ok
  {| ist := hst ps; ick := hck ps; init := hinit ps;
     next := fun fuel => zip_pull strict true ps fuel;
     get_state := hget ps; set_state := hset ps; jsonck := hjson ps |}
  end.

(** ** mix.py *)

(** _MixedDatasetIterator, mix.py:183-259, for a sequence of parents and integer
    proportions (the scaling of lines 306-311 is not modelled).  A mapping of
    parents is restored key by key, with the same effect.  [min] of no proportions
    raises ValueError, mix.py:310. *)
Definition mixed_it {A} (proportions : list Z) (ps : list (Iter A)) : res (Iter A) :=
  if existsb (Z.eqb 0) proportions then Raise ValueError
  else if Nat.eqb (List.length proportions) 0 then Raise ValueError
  else if negb (Nat.eqb (List.length ps) (List.length proportions)) then Raise AssertionError
  else Ok
  {| ist := hst ps * Z * bool; ick := hck ps * Z * bool; init := (hinit ps, 0, false);
     next := fun fuel '(s, index, stop) =>
       if stop : bool then (Stop, (s, index, true))
       else match dataset_and_key index proportions with
       | Ok (input_index, _) =>
           let (o, s') := hnext ps fuel (Z.to_nat input_index) s in
           match o with
           | Yield a => (Yield a, (s', index + 1, false))
           | o => (o, (s', index + 1, true))
           end
       | r => (of_res (let! _ := r in Raise InternalError), (s, index, false))
       end;
     get_state := fun '(s, index, stop) => (hget ps s, index, stop);
     set_state := fun fuel '(s, _, _) '(c, index, stop) =>
       let! s' := hset ps fuel s c in Ok (s', index, stop);
     jsonck := fun '(c, index, stop) => (hjson ps c, index, stop) |}.

(** ** flatmap.py *)

(** _FlatMapDatasetIterator attributes, flatmap.py:81-92. *)
Record flat_st (S C B : Type) := mkFlat {
  fm_parent : S; fm_buffer : list B; fm_index : nat; fm_last : C }.
Arguments mkFlat {S C B}. Arguments fm_parent {S C B}. Arguments fm_buffer {S C B}.
Arguments fm_index {S C B}. Arguments fm_last {S C B}.

(** __next__, flatmap.py:101-117. *)
Fixpoint flat_next {A B} (f : A -> res (list B)) (p : Iter A) (fuel : nat)
    (s : flat_st (ist p) (ick p) B) : out B * flat_st (ist p) (ick p) B :=
  match nth_error (fm_buffer s) (fm_index s) with
  | Some b => (Yield b, mkFlat (fm_parent s) (fm_buffer s) (S (fm_index s)) (fm_last s))
  | None =>
      match fuel with
      | O => (NoFuel, s)
      | S fuel' =>
          let last := get_state p (fm_parent s) in
          bindn (next p fuel' (fm_parent s))
            (fun s' => mkFlat s' (fm_buffer s) (fm_index s) last)
            (fun e s' =>
               match f e with
               | Ok buffer => flat_next f p fuel' (mkFlat s' buffer 0 last)
               | r => (of_res (let! _ := r in Raise UserError), mkFlat s' (fm_buffer s) 0 last)
               end)
      end
  end.
(** set_state, flatmap.py:125-138. *)
Definition flat_set {A B} (f : A -> res (list B)) (p : Iter A) (fuel : nat)
    (s : flat_st (ist p) (ick p) B) (c : ick p * nat) : res (flat_st (ist p) (ick p) B) :=
  let! s1 := set_state p fuel (fm_parent s) (fst c) in
  match next p fuel s1 with
  | (Yield e, s2) => let! buffer := f e in Ok (mkFlat s2 buffer (snd c) (fst c))
  | (Stop, s2) => Ok (mkFlat s2 (fm_buffer s) 0 (fst c))
  | (Fail e, _) => Raise e
  | (NoFuel, _) => OutOfFuel
  end.
(** _FlatMapDatasetIterator, flatmap.py:78-141. *)
Definition flat_map_it {A B} (f : A -> res (list B)) (p : Iter A) : Iter B :=
  {| ist := flat_st (ist p) (ick p) B; ick := ick p * nat;
     init := mkFlat (init p) [] 0 (get_state p (init p));
     next := flat_next f p;
     get_state := fun s => (fm_last s, fm_index s);
     set_state := flat_set f p;
     jsonck := fun '(c, i) => (jsonck p c, i) |}.

(** ** shuffle.py *)

(** _reshuffle_window, shuffle.py:171-179. *)
Definition reshuffle_window {A} (gen_keys : Z -> Z -> list Z) (window : list A) (seed : Z) : res (list A) :=
  let n := Z.of_nat (List.length window) in
  sequence (map (fun pos =>
    let! i := index_shuffle gen_keys pos (n - 1) seed 4 in pyindex window i)
    (zrange 0 (List.length window))).

(** _WindowShuffleDatasetIterator attributes, shuffle.py:187-201.  [ws_window] is
    kept in popping order: its head is the last entry of the Python list. *)
Record ws_st (S C A : Type) := mkWs {
  ws_parent : S; ws_window : list A; ws_index : Z; ws_pos : nat; ws_start : C; ws_exhausted : bool }.
Arguments mkWs {S C A}. Arguments ws_parent {S C A}. Arguments ws_window {S C A}.
Arguments ws_index {S C A}. Arguments ws_pos {S C A}. Arguments ws_start {S C A}.
Arguments ws_exhausted {S C A}.

(** Lines 205-211: read up to [n] elements; the flag says the parent stopped. *)
Fixpoint read_window {A} (p : Iter A) (fuel n : nat) (window : list A) (s : ist p)
  : res (list A * bool * ist p) :=
  match n with
  | O => Ok (window, false, s)
  | S n' =>
      match next p fuel s with
      | (Yield a, s') => read_window p fuel n' (window ++ [a]) s'
      | (Stop, s') => Ok (window, true, s')
      | (Fail e, _) => Raise e
      | (NoFuel, _) => OutOfFuel
      end
  end.
(** _fill_and_shuffle_window, shuffle.py:203-214; [exhausted] is the current
    value of _parent_exhausted. *)
Definition fill_window {A} (gen_keys : Z -> Z -> list Z) (window_size seed : Z) (p : Iter A) (fuel : nat)
    (s : ist p) (window_index : Z) (exhausted : bool) : res (list A * bool * ist p) :=
  let! (w, stopped, s') := read_window p fuel (Z.to_nat window_size) [] s in
  let! w' := reshuffle_window gen_keys w (seed + window_index) in
  Ok (rev w', exhausted || stopped, s').
(** __next__, shuffle.py:218-235. *)
Definition ws_pop {S C A} (s : ws_st S C A) : out A * ws_st S C A :=
  match ws_window s with
  | [] => (Stop, s)
  | a :: rest =>
      (Yield a, mkWs (ws_parent s) rest
                     (match rest with [] => ws_index s + 1 | _ => ws_index s end)
                     (ws_pos s + 1) (ws_start s) (ws_exhausted s))
  end.
Definition ws_next {A} (gen_keys : Z -> Z -> list Z) (window_size seed : Z) (p : Iter A) (fuel : nat)
    (s : ws_st (ist p) (ick p) A) : out A * ws_st (ist p) (ick p) A :=
  match ws_window s with
  | [] =>
      if ws_exhausted s then (Stop, s)
      else
        let start := get_state p (ws_parent s) in
        match fill_window gen_keys window_size seed p fuel (ws_parent s) (ws_index s) (ws_exhausted s) with
        | Ok (w, exhausted, s') => ws_pop (mkWs s' w (ws_index s) 0 start exhausted)
        | Raise e => (Fail e, s)
        | OutOfFuel => (NoFuel, s)
        end
  | _ => ws_pop s
  end.
(** set_state, shuffle.py:246-257. *)
Definition ws_set {A} (gen_keys : Z -> Z -> list Z) (window_size seed : Z) (p : Iter A) (fuel : nat)
    (s : ws_st (ist p) (ick p) A) (c : ick p * Z * nat) : res (ws_st (ist p) (ick p) A) :=
  let '(start, window_index, pos) := c in
  let! s1 := set_state p fuel (ws_parent s) start in
  let! (w, exhausted, s2) := fill_window gen_keys window_size seed p fuel s1 window_index false in
  Ok (mkWs s2 (skipn (Nat.min pos (List.length w)) w) window_index pos start exhausted).
(** _WindowShuffleDatasetIterator, shuffle.py:182-260.  When filling raises, the
    partial window is dropped by the model; no claim is made about the iterator
    after an exception. *)
Definition window_shuffle_it {A} (gen_keys : Z -> Z -> list Z) (window_size seed : Z) (p : Iter A) : Iter A :=
  {| ist := ws_st (ist p) (ick p) A; ick := ick p * Z * nat;
     init := mkWs (init p) [] 0 0 (get_state p (init p)) false;
     next := ws_next gen_keys window_size seed p;
     get_state := fun s => (ws_start s, ws_index s, ws_pos s);
     set_state := ws_set gen_keys window_size seed p;
     jsonck := fun '(c, i, n) => (jsonck p c, i, n) |}.

(** ** rebatch.py *)

(** An element is the flat list of its leaves, a leaf the list of its rows
    (tree_lib.flatten / unflatten_as are the subject of TreeLib.v). *)
Definition leaves (X : Type) := list (list X).
Record rb_st (S C X : Type) := mkRb {
  rb_parent : S; rb_current : option (leaves X); rb_idx : Z; rb_last : C }.
Arguments mkRb {S C X}. Arguments rb_parent {S C X}. Arguments rb_current {S C X}.
Arguments rb_idx {S C X}. Arguments rb_last {S C X}.

(** [len(batch[0])]; IndexError on an element without leaves. *)
Definition len0 {X} (b : leaves X) : res Z :=
  match b with [] => Raise IndexError | l :: _ => Ok (Z.of_nat (List.length l)) end.
(** [x[i:j]] and [x[i:]] for 0 <= i. *)
Definition slice_rows {X} (i j : Z) (l : list X) : list X :=
  firstn (Z.to_nat j - Z.to_nat i) (skipn (Z.to_nat i) l).
(** to_concatenate, kept concatenated: [None] is the empty list of line 117. *)
Definition append_rows {X} (acc : option (leaves X)) (rows : leaves X) : leaves X :=
  match acc with None => rows | Some a => map (fun xy => fst xy ++ snd xy) (combine a rows) end.

(** The while loop, rebatch.py:119-172. *)
Fixpoint rebatch_loop {X} (drop : bool) (p : Iter (leaves X)) (fuel : nat) (needed : Z)
    (acc : option (leaves X)) (s : rb_st (ist p) (ick p) X)
  : out (option (leaves X)) * rb_st (ist p) (ick p) X :=
  if needed <=? 0 then (Yield acc, s)
  else
  match fuel with
  | O => (NoFuel, s)
  | S fuel' =>
      (* lines 149-172, with a current batch *)
      let use (b : leaves X) (s : rb_st (ist p) (ick p) X) :=
        match len0 b with
        | Ok n =>
            if n <=? 0 then (Fail ValueError, s)
            else if rb_idx s + needed <=? n then
              rebatch_loop drop p fuel' 0
                (Some (append_rows acc (map (slice_rows (rb_idx s) (rb_idx s + needed)) b)))
                (mkRb (rb_parent s) (rb_current s) (rb_idx s + needed) (rb_last s))
            else
              rebatch_loop drop p fuel' (needed - (n - rb_idx s))
                (Some (append_rows acc (map (slice_rows (rb_idx s) n) b)))
                (mkRb (rb_parent s) (rb_current s) (rb_idx s + (n - rb_idx s)) (rb_last s))
        | r => (of_res (let! _ := r in Raise IndexError), s)
        end in
      (* lines 131-141 *)
      let fetch (is_first : bool) :=
        let last := get_state p (rb_parent s) in
        match next p fuel' (rb_parent s) with
        | (Yield e, s') => use e (mkRb s' (Some e) (if is_first then rb_idx s else 0) last)
        | (Stop, s') =>
            let s1 := mkRb s' (rb_current s) (rb_idx s) last in
            if drop then (Stop, s1) else (Yield acc, s1)
        | (Fail e, s') => (Fail e, mkRb s' (rb_current s) (rb_idx s) last)
        | (NoFuel, s') => (NoFuel, mkRb s' (rb_current s) (rb_idx s) last)
        end in
      match rb_current s with
      | None => fetch true
      | Some b =>
          match len0 b with
          | Ok n => if rb_idx s >=? n then fetch false else use b s
          | r => (of_res (let! _ := r in Raise IndexError), s)
          end
      end
  end.
(** _RebatchDatasetIterator, rebatch.py:76-187, and the check of lines 44-45. *)
Definition rebatch_it {X} (batch_size : Z) (drop : bool) (p : Iter (leaves X)) : res (Iter (leaves X)) :=
  if batch_size <=? 0 then Raise ValueError
  else Ok
  {| ist := rb_st (ist p) (ick p) X; ick := ick p * Z;
     init := mkRb (init p) None 0 (get_state p (init p));
     next := fun fuel s =>
       bindn (rebatch_loop drop p fuel batch_size None s) (fun s' => s') (fun acc s' =>
         match acc with None => (Stop, s') | Some rows => (Yield rows, s') end);
     get_state := fun s => (rb_last s, rb_idx s);
     set_state := fun fuel s '(c, idx) =>
       let! s' := set_state p fuel (rb_parent s) c in
       Ok (mkRb s' None idx (get_state p s'));
     jsonck := fun '(c, i) => (jsonck p c, i) |}.

(** ** cache.py *)

(** _InMemoryCacheDatasetIterator attributes, cache.py:53-59. *)
Record ca_st (S A : Type) := mkCa {
  ca_parent : S; ca_cache : list A; ca_pos : nat; ca_filled : bool; ca_rebuild : bool }.
Arguments mkCa {S A}. Arguments ca_parent {S A}. Arguments ca_cache {S A}.
Arguments ca_pos {S A}. Arguments ca_filled {S A}. Arguments ca_rebuild {S A}.

(** The rebuilding loop, cache.py:77-80 (StopIteration from the parent here
    propagates to the caller). *)
Fixpoint rebuild {A} (p : Iter A) (fuel n : nat) (cache : list A) (s : ist p) : out (list A) * ist p :=
  match n with
  | O => (Yield cache, s)
  | S n' => bindn (next p fuel s) (fun s' => s') (fun a s' => rebuild p fuel n' (cache ++ [a]) s')
  end.
(** Lines 81-90. *)
Definition cache_fetch {A} (p : Iter A) (fuel : nat) (s : ca_st (ist p) A) : out A * ca_st (ist p) A :=
  match next p fuel (ca_parent s) with
  | (Yield v, s') =>
      let cache := if Nat.eqb (List.length (ca_cache s)) (ca_pos s) then ca_cache s ++ [v] else ca_cache s in
      (Yield v, mkCa s' cache (S (ca_pos s)) (ca_filled s) (ca_rebuild s))
  | (Stop, s') => (Stop, mkCa s' (ca_cache s) (ca_pos s) true (ca_rebuild s))
  | (Fail e, s') => (Fail e, mkCa s' (ca_cache s) (ca_pos s) (ca_filled s) (ca_rebuild s))
  | (NoFuel, s') => (NoFuel, mkCa s' (ca_cache s) (ca_pos s) (ca_filled s) (ca_rebuild s))
  end.
(** __next__, cache.py:62-90. *)
Definition cache_next {A} (p : Iter A) (fuel : nat) (s : ca_st (ist p) A) : out A * ca_st (ist p) A :=
  if ca_filled s then
    match nth_error (ca_cache s) (ca_pos s) with
    | Some v => (Yield v, mkCa (ca_parent s) (ca_cache s) (S (ca_pos s)) true (ca_rebuild s))
    | None => (Stop, s)
    end
  else if ca_rebuild s then
    match set_state p fuel (ca_parent s) (get_state p (init p)) with
    | Ok s1 =>
        bindn (rebuild p fuel (ca_pos s) [] s1)
          (fun s2 => mkCa s2 [] (ca_pos s) (ca_filled s) false)
          (fun cache s2 => cache_fetch p fuel (mkCa s2 cache (ca_pos s) (ca_filled s) false))
    | Raise e => (Fail e, s)
    | OutOfFuel => (NoFuel, s)
    end
  else cache_fetch p fuel s.
(** _InMemoryCacheDatasetIterator, cache.py:50-109. *)
Definition cache_it {A} (p : Iter A) : Iter A :=
  {| ist := ca_st (ist p) A; ick := ick p * nat * bool;
     init := mkCa (init p) [] 0 false false;
     next := cache_next p;
     get_state := fun s => (get_state p (ca_parent s), ca_pos s, ca_filled s);
     set_state := fun fuel s '(c, pos, filled) =>
       let r := ca_rebuild s || (filled && negb (ca_filled s)) in
       let! s1 := set_state p fuel (ca_parent s) c in
       let r := r || (Nat.ltb (List.length (ca_cache s)) pos && negb (ca_filled s)) in
       Ok (mkCa s1 (ca_cache s) pos (ca_filled s) r);
     jsonck := fun '(c, pos, filled) => (jsonck p c, pos, filled) |}.

(** ** prefetch.py: MapDataset.to_iter_dataset *)

(** PrefetchDatasetIterator attributes, prefetch.py:175-201.  A future in the
    buffer is represented by its result: the element function is assumed to
    depend on the index only, so the time and thread of its evaluation do not
    matter. *)
Record pf_st (A : Type) := mkPf {
  pf_ret : Z; pf_buf : Z; pf_buffer : list (res (option A));
  pf_size : Z; pf_threads : Z; pf_checker : checker }.
Arguments mkPf {A}. Arguments pf_ret {A}. Arguments pf_buf {A}. Arguments pf_buffer {A}.
Arguments pf_size {A}. Arguments pf_threads {A}. Arguments pf_checker {A}.

(** _fill_buffer, prefetch.py:361-374; at most [n] more futures. *)
Fixpoint fill_buffer {A} (ds : MapDs A) (n : nat) (buffer : list (res (option A))) (nb : Z)
  : list (res (option A)) * Z :=
  match n with
  | O => (buffer, nb)
  | S n' => if nb <? mlen ds then fill_buffer ds n' (buffer ++ [mget ds nb]) (nb + 1) else (buffer, nb)
  end.
Definition pf_fill {A} (ds : MapDs A) (s : pf_st A) : pf_st A :=
  let (b, nb) := fill_buffer ds (Z.to_nat (pf_size s - Z.of_nat (List.length (pf_buffer s))))
                             (pf_buffer s) (pf_buf s) in
  mkPf (pf_ret s) nb b (pf_size s) (pf_threads s) (pf_checker s).

(** Lines 252-275: one element, and the state in which its result has been
    demanded but _next_returned_index not yet advanced. *)
Definition pf_take {A} (ds : MapDs A) (s : pf_st A) : res (option A) * pf_st A :=
  if (pf_size s >? 0) && (pf_threads s >? 0) then
    let s := match pf_buffer s with [] => pf_fill ds s | _ => s end in
    match pf_buffer s with
    | [] => (Raise IndexError, s)
    | r :: rest =>
        (r, pf_fill ds (mkPf (pf_ret s) (pf_buf s) rest (pf_size s) (pf_threads s) (pf_checker s)))
    end
  else
    match pf_buffer s with
    | r :: rest => (r, mkPf (pf_ret s) (pf_buf s) rest (pf_size s) (pf_threads s) (pf_checker s))
    | [] =>
        match mget ds (pf_ret s) with
        | Ok e => (Ok e, mkPf (pf_ret s) (pf_buf s + 1) [] (pf_size s) (pf_threads s) (pf_checker s))
        | r => (r, s)
        end
    end.
(** __next__, prefetch.py:242-282 (_assert_not_closed is not modelled). *)
Fixpoint prefetch_next {A} (thr : option (Z * Z)) (allow_nones : bool) (ds : MapDs A) (fuel : nat)
    (s : pf_st A) : out (option A) * pf_st A :=
  if pf_ret s =? mlen ds then (Stop, s)
  else
  match fuel with
  | O => (NoFuel, s)
  | S fuel' =>
      match pf_take ds s with
      | (Ok e, s1) =>
          let return_element := allow_nones || match e with Some _ => true | None => false end in
          let (c, err) := check thr (pf_checker s1) return_element in
          let s2 := mkPf (pf_ret s1 + 1) (pf_buf s1) (pf_buffer s1) (pf_size s1) (pf_threads s1) c in
          match err with
          | Some x => (Fail x, s2)
          | None => if return_element then (Yield e, s2) else prefetch_next thr allow_nones ds fuel' s2
          end
      | (Raise x, s1) => (Fail x, s1)
      | (OutOfFuel, s1) => (NoFuel, s1)
      end
  end.
(** set_state, prefetch.py:287-303. *)
Definition prefetch_set {A} (ds : MapDs A) (s : pf_st A) (next_index : Z) : res (pf_st A) :=
  if (next_index <? 0) || (next_index >? mlen ds) then Raise IndexError
  else Ok (mkPf next_index next_index [] (pf_size s) (pf_threads s) (pf_checker s)).
(** PrefetchDatasetIterator, prefetch.py:170-309. *)
Definition prefetch_it {A} (thr : option (Z * Z)) (allow_nones : bool) (num_threads buffer_size : Z)
    (ds : MapDs A) : Iter (option A) :=
  {| ist := pf_st A; ick := Z;
     init := mkPf 0 0 [] buffer_size num_threads checker0;
     next := prefetch_next thr allow_nones ds;
     get_state := fun s => pf_ret s;
     set_state := fun _ s c => prefetch_set ds s c;
     jsonck := fun c => c |}.
(** _set_prefetch_buffer_size, prefetch.py:322-339, _set_num_threads, 341-359, and
    start_prefetch, 376-378.  Creating and shutting down executors has no effect
    on the modelled state: an executor exists exactly when both are positive, and
    shutdown() lets submitted futures finish. *)
Definition pf_set_buffer_size {A} (n : Z) (s : pf_st A) : pf_st A :=
  mkPf (pf_ret s) (pf_buf s) (pf_buffer s) n (pf_threads s) (pf_checker s).
Definition pf_set_num_threads {A} (n : Z) (s : pf_st A) : pf_st A :=
  mkPf (pf_ret s) (pf_buf s) (pf_buffer s) (pf_size s) n (pf_checker s).
Definition pf_start_prefetch {A} (ds : MapDs A) (s : pf_st A) : pf_st A :=
  if (pf_size s >? 0) && (pf_threads s >? 0) then pf_fill ds s else s.
(** The same iterator while something (autotuning, or the user through the options
    of later stages) changes the buffer size and the number of threads or calls
    start_prefetch: [sched k] are the changes made before the [k]-th call of
    __next__ or set_state. *)
Inductive pf_tune : Type := TuneBuffer (n : Z) | TuneThreads (n : Z) | TuneStart.
Definition pf_apply {A} (ds : MapDs A) (s : pf_st A) (t : pf_tune) : pf_st A :=
  match t with
  | TuneBuffer n => pf_set_buffer_size n s
  | TuneThreads n => pf_set_num_threads n s
  | TuneStart => pf_start_prefetch ds s
  end.
Definition prefetch_tuned {A} (sched : nat -> list pf_tune) (thr : option (Z * Z)) (allow_nones : bool)
    (num_threads buffer_size : Z) (ds : MapDs A) : Iter (option A) :=
  let p := prefetch_it thr allow_nones num_threads buffer_size ds in
  {| ist := pf_st A * nat; ick := Z;
     init := (init p, O);
     next := fun fuel '(s, k) =>
       let (o, s') := next p fuel (fold_left (pf_apply ds) (sched k) s) in (o, (s', S k));
     get_state := fun '(s, _) => pf_ret s;
     set_state := fun fuel '(s, k) c =>
       let! s' := prefetch_set ds (fold_left (pf_apply ds) (sched k) s) c in Ok (s', S k);
     jsonck := fun c => c |}.
