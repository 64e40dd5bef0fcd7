(** Model of grain/_src/python/dataset/transformations/prefetch_autotune.py (pick_performance_config).

    Sizes in bytes are integers, averages and budgets exact rationals instead of floats.  Logging is left out. *)
From Coq Require Import QArith String.
From Verif Require Import Base.
Open Scope Z_scope.

(** A Python object, as far as _get_element_size_bytes looks at it: a dictionary, a list or tuple, an array with its nbytes,
    anything else with its sys.getsizeof. *)
Inductive obj : Type := ODict (items : list (string * obj)) | OSeq (items : list obj) | OArray (nbytes : Z) | OOther (getsizeof : Z).

(** _get_element_size_bytes, lines 18-32. *)
Fixpoint element_size (o : obj) : Z :=
  match o with
  | ODict items => fold_right (fun kv n => element_size (snd kv) + n) 0 items
  | OSeq items => fold_right (fun v n => element_size v + n) 0 items
  | OArray n | OOther n => n
  end.

(** A dataset: whether it is a PrefetchIterDataset, the elements that iterating over it gives (of an infinite one, a prefix that is
    longer than the number of samples), its parents. *)
Inductive dataset : Type := Ds (is_prefetch : bool) (elements : list obj) (parents : list dataset).
Definition elements (d : dataset) : list obj := let '(Ds _ e _) := d in e.

(** math.ceil(float(a) / b) for b > 0, line 51. *)
Definition ceil_div (a b : Z) : Z := - ((- a) / b).

(** itertools.islice(ds, n): ValueError for a negative n. *)
Definition islice (n : Z) (l : list obj) : res (list obj) := if n <? 0 then Raise ValueError else Ok (firstn (Z.to_nat n) l).
(** int(x): towards zero. *)
Definition int_of (q : Q) : Z := Z.quot (Qnum q) (Zpos (Qden q)).

(** _get_average_element_size_mb, lines 35-66.  None: np.mean([]) is nan. *)
Definition average_mb (dss : list dataset) (samples_to_check : Z) : res (option Q) :=
  match dss with
  | [] => Ok (Some 0%Q)
  | _ =>
      let samples_per_ds := ceil_div samples_to_check (Z.of_nat (List.length dss)) in
      let! samples := sequence (map (fun d => islice samples_per_ds (elements d)) dss) in
      let elements_to_sample := concat samples in
      if Z.of_nat (List.length elements_to_sample) <? samples_to_check then Ok (Some 0%Q)
      else
        match elements_to_sample with
        | [] => Ok None
        | l => Ok (Some (inject_Z (fold_right Z.add 0%Z (map element_size l)) / inject_Z (Z.of_nat (List.length l)) / inject_Z 1048576)%Q)
        end
  end.

(** ram_budget_mb / average and int of it: TypeError for None / float, ValueError for int(nan). *)
Definition fit (ram_budget_mb : option Z) (mb : option Q) : res Z :=
  match ram_budget_mb, mb with
  | None, _ => Raise TypeError
  | _, None => Raise ValueError
  | Some ram, Some mb => Ok (int_of (inject_Z ram / mb)%Q)
  end.
Definition zero_or_less (mb : option Q) : bool := match mb with Some q => Qle_bool q 0 | None => false end.

(** _get_num_workers, lines 69-91. *)
Definition get_num_workers (cpu_count : Z) (ds : dataset) (ram_budget_mb max_workers : option Z) (samples_to_check : Z) : res Z :=
  let! average := average_mb [ds] samples_to_check in
  let max_workers := match max_workers with None => cpu_count | Some m => m end in
  if zero_or_less average then Ok max_workers
  else let! num_workers := fit ram_budget_mb average in Ok (Z.min num_workers max_workers).

(** _find_prefetch_iter_dataset_parents, lines 173-195; a PrefetchIterDataset has one parent. *)
Fixpoint prefetch_parents (d : dataset) : list dataset :=
  let '(Ds is_prefetch _ parents) := d in
  if is_prefetch then firstn 1 parents else flat_map prefetch_parents parents.

(** ReadOptions(prefetch_buffer_size=n), grain/_src/python/options.py:53-66. *)
Definition read_options (n : Z) : res Z := if n <? 0 then Raise ValueError else Ok n.

(** _get_buffer_size, lines 94-123. *)
Definition get_buffer_size (ds : dataset) (ram_budget_mb max_buffer_size : option Z) (samples_to_check : Z) : res Z :=
  let dss := prefetch_parents ds in
  let! average := average_mb dss samples_to_check in
  let max_buffer_size := match max_buffer_size with None => 1000 | Some m => m end in
  if zero_or_less average then read_options max_buffer_size
  else
    let! buffer_size :=
      fit ram_budget_mb (match average with Some q => Some (q * inject_Z (Z.of_nat (List.length dss)))%Q | None => None end) in
    read_options (Z.min buffer_size max_buffer_size).

(** pick_performance_config, lines 132-170: num_workers and prefetch_buffer_size. *)
Definition pick_performance_config (cpu_count : Z) (ds : dataset) (ram_budget_mb max_workers max_buffer_size : option Z)
    (samples_to_check : Z) : res (Z * Z) :=
  let! num_workers := get_num_workers cpu_count ds ram_budget_mb max_workers samples_to_check in
  let! buffer := get_buffer_size ds ram_budget_mb max_buffer_size samples_to_check in
  Ok (num_workers, buffer).
