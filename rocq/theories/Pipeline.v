(** Iterator pipelines.  [pipe it l fin used json]: [it] is built from the modelled
    transformations and [l] is the list of elements this pipeline is documented to
    output: all of them ([fin = true]), or some of the first ones ([fin = false],
    the stream may be infinite).  [used = false] marks pipelines containing
    flat_map or cache, whose checkpoints can only be restored into a new iterator.

    The rules only say what each transformation outputs; nothing is said about
    states.  Not included: interleave (and multiprocess prefetch, which ends with it), whose
    checkpoints are the subject of C35. *)
From Coq Require Import Permutation.
From Verif Require Import Base MapDatasets Spec Iter IterSpec FileSources FileSpec Packing PackingSpec ConcatSplit ConcatSplitSpec Scheduled.

Inductive pipe (gen_keys : Z -> Z -> list Z) : forall {A : Type}, Iter A -> list A -> bool -> bool -> bool -> Prop :=
(* MapDataset.to_iter_dataset / iter(map_dataset), with the tuning changes [sched]
   applied while it runs: the elements at indices 0.. that are not None *)
| p_source A (ds : MapDs A) E allow_nones sched num_threads buffer_size :
    (forall i e, nth_error E i = Some e -> mget ds (Z.of_nat i) = Ok e) ->
    Z.of_nat (length E) <= mlen ds ->
    pipe gen_keys (prefetch_tuned sched None allow_nones num_threads buffer_size ds)
         (filter (fun e => allow_nones || match e with Some _ => true | None => false end) E)
         (Z.of_nat (length E) =? mlen ds) true true
| p_retype A B (h : A -> B) p l fin used json :
    pipe gen_keys p l fin used json -> pipe gen_keys (retype h p) (map h l) fin used json
| p_map A B (f : A -> res (option B)) p l l' fin used json :
    Forall2 (fun e b => map_element f e = Ok b) l l' ->
    pipe gen_keys p l fin used json -> pipe gen_keys (map_it f p) l' fin used json
| p_map_with_index A B (f : Z -> A -> res (option B)) p l l' fin used json :
    Forall2 (fun ie b => map_element (f (fst ie)) (snd ie) = Ok b) (combine (zrange 0 (length l)) l) l' ->
    pipe gen_keys p l fin used json -> pipe gen_keys (map_with_index_it f p) l' fin used json
| p_random_map A B G (f : A -> G -> res (option B)) rng pi pc p l l' fin used json :
    Forall2 (fun ie b => map_element (fun x => f x (rng (pi + fst ie * pc))) (snd ie) = Ok b)
            (combine (zrange 0 (length l)) l) l' ->
    pipe gen_keys p l fin used json -> pipe gen_keys (random_map_it f rng pi pc p) l' fin used json
| p_filter A (f : A -> res bool) g p l fin used json :
    Forall (fun v => f v = Ok (g v)) l ->
    pipe gen_keys p l fin used json -> pipe gen_keys (filter_it None f p) (filter g l) fin used json
| p_batch A B batch_size drop (batch_fn : list A -> res B) p it l l' fin used json :
    batch_it batch_size drop batch_fn p = Ok it ->
    Forall2 (fun c b => batch_fn c = Ok b)
      (if fin && negb drop then chunks (Z.to_nat batch_size) l else full_chunks (Z.to_nat batch_size) l) l' ->
    pipe gen_keys p l fin used json -> pipe gen_keys it l' fin used json
| p_limit A count (p : Iter A) it l fin used json :
    limit_it count p = Ok it -> pipe gen_keys p l fin used json ->
    pipe gen_keys it (firstn (Z.to_nat count) l) (fin || Nat.ltb (Z.to_nat count) (length l)) used json
| p_repeat A n (p : Iter A) it l used json :
    repeat_it (Some (Z.of_nat n)) p = Ok it -> pipe gen_keys p l true used json ->
    pipe gen_keys it (concat (List.repeat l n)) true used json
| p_repeat_forever A n (p : Iter A) it l used json :
    repeat_it None p = Ok it -> pipe gen_keys p l true used json ->
    pipe gen_keys it (concat (List.repeat l n)) false used json
| p_repeat_unended A num_epochs (p : Iter A) it l used json :
    repeat_it num_epochs p = Ok it -> pipe gen_keys p l false used json -> pipe gen_keys it l false used json
| p_flat_map A B (f : A -> res (list B)) g p l fin used json :
    Forall (fun v => f v = Ok (g v)) l ->
    pipe gen_keys p l fin used json -> pipe gen_keys (flat_map_it f p) (flat_map g l) fin false json
| p_cache A (p : Iter A) l fin used json :
    pipe gen_keys p l fin used json -> pipe gen_keys (cache_it p) l fin false json
| p_window_shuffle A ws seed (p : Iter A) l W (fin used json : bool) :
    let C := if fin then chunks (Z.to_nat ws) l else full_chunks (Z.to_nat ws) l in
    1 <= ws <= 2 ^ 63 -> 0 <= seed -> seed + Z.of_nat (length C) < 2 ^ 32 ->
    Forall2 (fun wc o => reshuffle_window gen_keys (snd wc) (seed + fst wc) = Ok (rev o))
            (combine (zrange 0 (length C)) C) W ->
    pipe gen_keys p l fin used json -> pipe gen_keys (window_shuffle_it gen_keys ws seed p) (concat W) fin used json
| p_rebatch X k bs drop (p : Iter (leaves X)) it l out fin used json :
    (1 <= k)%nat -> Forall (regular k) l -> rebatch_it bs drop p = Ok it ->
    (fin = false \/ drop = true \/ (total_rows l mod Z.to_nat bs)%nat <> 0%nat \/ l = []) ->
    rebatched k (Z.to_nat bs) (drop || negb fin) l out ->
    pipe gen_keys p l fin used json -> pipe gen_keys it out fin used json
| p_zip A strict (ps : list (Iter A)) it ls fin used json :
    zip_it strict ps = Ok it -> length ps = length ls ->
    (forall i p l, nth_error ps i = Some p -> nth_error ls i = Some l -> pipe gen_keys p l fin used json) ->
    pipe gen_keys it (zip_lists ls)
      (fin && (negb strict || forallb (fun l => Nat.eqb (length l) (length (zip_lists ls))) ls)) used json
| p_mix A props (ps : list (Iter A)) it ls out fin pfin used json :
    (forall p, In p props -> 0 < p) -> mixed_it props ps = Ok it -> length ps = length props ->
    length ps = length ls ->
    (forall i p l, nth_error ps i = Some p -> nth_error ls i = Some l -> pipe gen_keys p l pfin used json) ->
    mixture props ls out ->
    (fin = true -> pfin = true /\ mixture_ends props ls out) ->
    (pfin = false -> mixture_within props ls out /\ Forall (fun l => l <> []) ls) ->
    pipe gen_keys it out fin used json
(* files: complete TFRecord files, and Parquet files with the given row groups *)
| p_tfrecord rs : Forall valid_record rs -> pipe gen_keys (tfrecord_it (tf_file rs)) (map r_data rs) true true true
| p_parquet A (groups : list (list A)) it : parquet_it groups = Ok it -> pipe gen_keys it (concat groups) true true true
(* FirstFitPackIterDataset, BestFitPackIterDataset *)
| p_pack A M best (fs : list (feature A)) bins max_seq permuted seed shuffle_bins group order (p : Iter (element A M)) it l bs (fin used json : bool) :
    usable fs bins max_seq seed -> packing best fs bins max_seq permuted seed shuffle_bins group p = Ok it ->
    (forall T rows, (if shuffle_bins then shuffled_rows permuted seed group rows (Z.of_nat T) else Ok (seq 0 (length rows))) = Ok (order T rows) /\
                    Permutation (order T rows) (seq 0 (length rows))) ->
    Forall (fits_alone fs) l -> packs (places best fs max_seq) bins l bs ->
    pipe gen_keys p l fin used json -> pipe gen_keys it (emission fs order 0 (if fin then bs else removelast bs)) fin used json
(* ConcatThenSplitIterDataset: [out] is what it outputs if it is read to the end (see C43, C44) *)
| p_concat_split A (cfg : config A) (p : Iter (list (value A))) it l out used json :
    good_config cfg -> accepted cfg -> dataset_of cfg p = Ok it -> Forall (good_element cfg) l ->
    elements it out ->
    pipe gen_keys p l true used json -> pipe gen_keys it out true used false
(* prefetching in a thread or a process, under any schedule: the same elements *)
| p_thread_prefetch A size eager sched (p : Iter A) l json : (eager = true -> (1 <= size)%nat) ->
    pipe gen_keys p l true true json -> pipe gen_keys (thread_prefetch_it size eager sched p) l true true json
| p_process_prefetch A size keep sched (p : Iter A) l json : (1 <= size)%nat ->
    pipe gen_keys p l true true json -> pipe gen_keys (process_prefetch_it size keep sched p) l true true json
(* a statement about less *)
| p_first A n (p : Iter A) l fin used json :
    pipe gen_keys p l fin used json -> pipe gen_keys p (firstn n l) false used json
| p_flags A (p : Iter A) l fin used json used' json' :
    (used' = true -> used = true) -> (json' = true -> json = true) ->
    pipe gen_keys p l fin used json -> pipe gen_keys p l fin used' json'.
