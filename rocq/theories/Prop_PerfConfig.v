(** C69: the performance configuration. *)
From Coq Require Import QArith Lqa String.
From Verif Require Import Base PerfConfig PerfConfigSpec PerfConfig_proofs.
Open Scope Z_scope.

(** The datasets whose elements are looked at are exactly those below the prefetches. *)
Theorem C69_found ds : well_formed ds -> forall p, In p (prefetch_parents ds) <-> prefetched ds p.
Proof. apply prefetch_parents_spec. Qed.

(** The number of workers and the size of the buffers are the largest for which that many elements, and that many elements of every
    prefetched dataset, fit into the budget (by the mean size of the first elements), but not more than the given maxima. *)
Theorem C69_budget cpu ds ram max_workers max_buffer samples :
  0 < samples -> 0 <= ram ->
  let out := mean_mb (first_elements samples ds) in
  let dss := prefetch_parents ds in
  let k := share samples (Z.of_nat (List.length dss)) in
  let ins := qsum (map (fun d => mean_mb (first_elements k d)) dss) in
  samples <= Z.of_nat (List.length (elements ds)) -> (0 < out)%Q ->
  (forall d, In d dss -> k <= Z.of_nat (List.length (elements d))) -> (0 < ins)%Q ->
  let most_workers := match max_workers with None => cpu | Some m => m end in
  let most_buffer := match max_buffer with None => 1000 | Some m => m end in 0 <= most_buffer ->
  exists w b, pick_performance_config cpu ds (Some ram) max_workers max_buffer samples = Ok (w, b) /\
    (w <= most_workers /\ (inject_Z w * out <= inject_Z ram)%Q /\ (w = most_workers \/ (inject_Z ram < inject_Z (w + 1) * out)%Q)) /\
    (0 <= b <= most_buffer /\ (inject_Z b * ins <= inject_Z ram)%Q /\ (b = most_buffer \/ (inject_Z ram < inject_Z (b + 1) * ins)%Q)).
Proof.
  intros Hs Hr out dss k ins He Ho Hd Hi mw mb Hm.
  destruct (workers_spec cpu ds ram max_workers samples Hs Hr He Ho) as (w & Ew & Hw).
  destruct (buffer_spec ds ram max_buffer samples Hs Hr Hd Hi Hm) as (b & Eb & Hb).
  exists w, b. unfold pick_performance_config. rewrite Ew. cbn [bind]. rewrite Eb. cbn [bind]. auto.
Qed.

Definition mb (n : Z) : obj := ODict [("x"%string, OArray (n * 1048576)); ("y"%string, OSeq [OOther 0])].
(** Two prefetched datasets with elements of 3 and 2 MB, zipped and batched to 40 MB. *)
Definition zipped : dataset :=
  let source n := Ds false (repeat (mb n) 20) [] in
  Ds false (repeat (mb 40) 6) [Ds false (repeat (mb 5) 20) [Ds true (repeat (mb 3) 20) [source 3]; Ds false (repeat (mb 2) 20) [Ds true (repeat (mb 2) 20) [source 2]]]].
Example C69_example :
  well_formed zipped /\ List.length (prefetch_parents zipped) = 2%nat /\
  (mean_mb (first_elements 5 zipped) == 40)%Q /\
  (qsum (map (fun d => mean_mb (first_elements (share 5 2) d)) (prefetch_parents zipped)) == 5)%Q /\
  pick_performance_config 64 zipped (Some 300) None None 5 = Ok (7, 60).
Proof.
  split.
  { cbn. repeat split; try discriminate; intros _; eexists; reflexivity. }
  split; [reflexivity|]. split; [vm_compute; reflexivity|]. split; vm_compute; reflexivity.
Qed.

(** With fewer elements than samples_to_check the budget is ignored and the maxima are taken. *)
Theorem C69_few_refuted : exists ds, List.length (elements ds) = 4%nat /\ pick_performance_config 64 ds (Some 10) None None 5 = Ok (64, 1000) /\
  (inject_Z 10 < 64 * mean_mb (elements ds))%Q.
Proof. exists (Ds false (repeat (mb 40) 4) [Ds true (repeat (mb 40) 4) [Ds false (repeat (mb 40) 4) []]]). vm_compute. auto. Qed.
(** When one of the prefetched datasets has only few elements, its size has less weight and the buffers may need more than the budget. *)
Theorem C69_uneven_refuted : exists ds w b,
  pick_performance_config 64 ds (Some 100) None None 5 = Ok (w, b) /\
  (inject_Z 100 < inject_Z b * qsum (map (fun d => mean_mb (elements d)) (prefetch_parents ds)))%Q.
Proof.
  exists (let source size n := Ds true (repeat (mb size) n) [Ds false (repeat (mb size) n) []] in
          Ds false (repeat (mb 1) 5) [source 30 1%nat; source 1 2%nat; source 1 2%nat]), 64, 4.
  split; vm_compute; reflexivity.
Qed.
(** ram_budget_mb=None, which the annotation allows, raises TypeError. *)
Theorem C69_none_refuted : forall cpu max_workers max_buffer, pick_performance_config cpu zipped None max_workers max_buffer 5 = Raise TypeError.
Proof. intros. vm_compute. reflexivity. Qed.
