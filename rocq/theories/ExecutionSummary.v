(** Model of the execution summary: grain/_src/python/dataset/stats.py (lines 124-205, 830-850, 918-1152) and
    grain/_src/python/dataset/stats_utils.py (lines 29-189).

    Ratios are rational numbers; [rnd] stands for the float division together with round(_, 4).  The integers of the protobuf
    messages do not overflow here.  A protobuf map is a list of pairs; reading a key that is missing gives the default message (in
    Python it also adds it to the map, which is not modelled).  output_spec is left out.  clear_field followed by a read of the old repeated
    field (stats_utils.py:144-146) gives the old contents. *)
From Coq Require Import QArith String.
From Verif Require Import Base Tree.
Open Scope Z_scope.

(** ** What a node records *)

(** The part of ExecutionSummary.Node that a node fills in itself (execution_summary.proto). *)
Record info := mkInfo {
  i_name : string;
  i_total : Z;                 (* total_processing_time_ns *)
  i_min : Z;                   (* min_processing_time_ns *)
  i_max : Z;                   (* max_processing_time_ns *)
  i_count : Z;                 (* num_produced_elements *)
  i_consumed : Z;              (* bytes_consumed *)
  i_produced : Z;              (* bytes_produced *)
}.
(** sys.maxsize *)
Definition maxsize : Z := 2 ^ 63 - 1.
(** stats.py:850-853 *)
Definition fresh_info (name : string) : info := mkInfo name 0 maxsize 0 0 0 0.
(** The body of the first loop of report, stats.py:992-1008: a record is (duration_ns, num_elements). *)
Definition record_time (i : info) (r : Z * Z) : info :=
  let (duration, n) := r in
  if n <=? 0 then i
  else
    let per_element := duration / n in
    mkInfo (i_name i) (i_total i + duration) (Z.min (i_min i) per_element) (Z.max (i_max i) per_element)
           (i_count i + n) (i_consumed i) (i_produced i).
(** report of one node, stats.py:991-1013; the buffers are popped from the end. *)
Definition report (i : info) (times : list (Z * Z)) (consumed produced : list Z) : info :=
  let i := fold_left record_time (rev times) i in
  mkInfo (i_name i) (i_total i) (i_min i) (i_max i) (i_count i)
         (fold_left Z.add (rev consumed) (i_consumed i)) (fold_left Z.add (rev produced) (i_produced i)).

(** ** Summaries *)

Record node := mkNode {
  n_id : nat;
  n_info : info;
  n_inputs : list nat;
  n_ratio : Q;                 (* wait_time_ratio *)
  n_output : bool;             (* is_output *)
  n_prefetch : bool;           (* is_prefetch *)
}.
Definition default_node : node := mkNode 0 (mkInfo EmptyString 0 0 0 0 0 0) [] 0%Q false false.
Definition summary := list (nat * node).
(** summary.nodes[key] *)
Definition node_at (s : summary) (key : nat) : node := match lookup key s with Some n => n | None => default_node end.
(** summary.nodes[key].CopyFrom(n), or an assignment to its fields *)
Fixpoint put_node (s : summary) (key : nat) (n : node) : summary :=
  match s with
  | [] => [(key, n)]
  | (k, m) :: s => if Nat.eqb k key then (k, n) :: s else (k, m) :: put_node s key n
  end.
Definition with_inputs (n : node) (inputs : list nat) : node :=
  mkNode (n_id n) (n_info n) inputs (n_ratio n) (n_output n) (n_prefetch n).
Definition with_ratio (n : node) (r : Q) : node :=
  mkNode (n_id n) (n_info n) (n_inputs n) r (n_output n) (n_prefetch n).
Definition total (s : summary) (key : nat) : Z := i_total (n_info (node_at s key)).

(** get_avg_processing_time_ns, stats_utils.py:81-87; the division is exact here. *)
Definition avg_processing_time (n : node) : Z :=
  if i_count (n_info n) =? 0 then 0 else Z.quot (i_total (n_info n)) (i_count (n_info n)).

(** ** Waiting times *)

Section Ratio.
Variable rnd : Q -> Q.

(** _get_nodes_before_prefetch, stats.py:124-137.  The head of [stack] is the end of nodes_to_visit. *)
Fixpoint nodes_before_prefetch (fuel : nat) (s : summary) (stack : list nat) : res (list nat) :=
  match stack with
  | [] => Ok []
  | id :: stack =>
      match fuel with
      | O => OutOfFuel
      | S fuel =>
          let n := node_at s id in
          let! rest := nodes_before_prefetch fuel s (if n_prefetch n then stack else rev (n_inputs n) ++ stack) in
          Ok (id :: rest)
      end
  end.
(** _find_aggregated_processing_time, stats.py:140-147 *)
Definition aggregated_time (s : summary) (ids : list nat) : Z := fold_right Z.add 0 (map (total s) ids).

(** The loop over the inputs, stats.py:175-193, with the variables it changes; [rec] is the recursive call. *)
Fixpoint ratio_inputs (fuel : nat) (rec : summary -> nat -> Z -> Q -> res summary)
    (inputs : list nat) (id : nat) (s : summary) (aggregated : Z) (factor : Q) : res summary :=
  match inputs with
  | [] => Ok s
  | input :: inputs =>
      if n_prefetch (node_at s id) then
        let factor := n_ratio (node_at s id) in
        let! ids := nodes_before_prefetch fuel s [input] in
        let aggregated := aggregated_time s ids in
        let s := put_node s id (with_ratio (node_at s id) 0%Q) in
        let! s := rec s input aggregated factor in
        ratio_inputs fuel rec inputs id s aggregated factor
      else
        let! s := rec s input aggregated factor in
        ratio_inputs fuel rec inputs id s aggregated factor
  end.
(** _compute_wait_time_ratio, stats.py:150-193 *)
Fixpoint compute_ratio (fuel : nat) (s : summary) (id : nat) (aggregated : Z) (factor : Q) : res summary :=
  match fuel with
  | O => OutOfFuel
  | S fuel' =>
      if aggregated =? 0 then Ok s
      else
        let n := node_at s id in
        let s := put_node s id (with_ratio n (rnd (factor * (inject_Z (i_total (n_info n)) / inject_Z aggregated))%Q)) in
        ratio_inputs fuel' (compute_ratio fuel') (n_inputs n) id s aggregated factor
  end.
(** _populate_wait_time_ratio, stats.py:196-205 *)
Definition populate_ratio (fuel : nat) (s : summary) : res summary :=
  let! ids := nodes_before_prefetch fuel s [0%nat] in
  compute_ratio fuel s 0 (aggregated_time s ids) 1%Q.

(** ** Putting summaries together *)

(** merge_execution_summaries, stats_utils.py:106-134 *)
Definition merge_node (from to : node) : node :=
  let f := n_info from in let t := n_info to in
  mkNode (n_id from)
    (mkInfo (i_name f) (i_total t + i_total f) (Z.min (i_min t) (i_min f)) (Z.max (i_max t) (i_max f))
            (i_count t + i_count f) (i_consumed t + i_consumed f) (i_produced t + i_produced f))
    (n_inputs from) (n_ratio to) (n_output from) (n_prefetch to).
Definition merge_summaries (from to : summary) : summary :=
  fold_left (fun to kn => put_node to (fst kn) (merge_node (snd kn) (node_at to (fst kn)))) from to.
(** The loops of _get_merged_summary and of _get_merged_summary_from_workers, stats.py:1048-1050 and 1116-1118 *)
Definition merge_all (subs : list summary) : summary := fold_left merge_summaries subs [].

(** update_node_ids_with_offset, stats_utils.py:137-146 *)
Definition offset_node (k : nat) (n : node) : node :=
  mkNode (n_id n + k) (n_info n) (map (fun i => (i + k)%nat) (n_inputs n)) (n_ratio n) (n_output n) (n_prefetch n).
Definition not_output (n : node) : node := mkNode (n_id n) (n_info n) (n_inputs n) (n_ratio n) false (n_prefetch n).
(** get_complete_summary, stats_utils.py:160-189 *)
Definition complete_summary (main workers : summary) (num_nodes_in_main : nat) : summary :=
  let workers := map (fun kn => (fst kn, offset_node num_nodes_in_main (snd kn))) workers in
  let outputs := filter n_output (map snd workers) in
  let bytes := fold_right Z.add 0 (map (fun n => i_produced (n_info n)) outputs) in
  let workers := map (fun kn => (fst kn, not_output (snd kn))) workers in
  let root := (num_nodes_in_main - 1)%nat in
  let n := node_at main root in
  let i := n_info n in
  let n := mkNode (n_id n) (mkInfo (i_name i) (i_total i) (i_min i) (i_max i) (i_count i) bytes (i_produced i))
                  (n_inputs n ++ map n_id outputs) (n_ratio n) (n_output n) (n_prefetch n) in
  fold_left (fun main kn => put_node main (n_id (snd kn)) (snd kn)) workers (put_node main root n).

(** ** The summary of a pipeline *)

(** The Stats objects of a pipeline: _ExecutionStats of a transformation (whether it prefetches, its parents);
    _InterleaveExecutionStats with the stats of the iterators that have produced an element (interleave.py:110-120);
    _MPPrefetchExecutionStats of process_prefetch.py:398-422 (one queue, no parents), with the pipeline inside the
    worker as it was when the worker sent its last summary, if one has arrived. *)
Inductive stats : Type :=
| Plain (i : info) (prefetch : bool) (parents : list stats)
| Interleaved (i : info) (parents : list stats)
| InWorker (i : info) (inside : option stats).

(** stats.py:926-933: is_output is false exactly for the parents of a Stats object (lines 601-606). *)
Definition new_node (i : info) (id : nat) (output prefetch : bool) : node := mkNode id i [] 0%Q output prefetch.

(** "All parent summaries must have the same number of nodes", stats.py:1110-1115 *)
Definition same_length (subs : list summary) : bool :=
  match subs with [] => true | s :: subs => forallb (fun s' => Nat.eqb (length s') (length s)) subs end.

(** _build_execution_summary, stats.py:918-941, 1058-1087 and 1122-1151; [output] is _is_output. *)
Fixpoint build (fuel : nat) (output : bool) (t : stats) (s : summary) (id : nat) {struct t} : res (summary * nat) :=
  match t with
  | Plain i prefetch parents =>
      (fix visit (ps : list stats) (s : summary) (next : nat) {struct ps} : res (summary * nat) :=
         match ps with
         | [] => Ok (s, next)
         | p :: ps =>
             let n := node_at s id in
             let s := put_node s id (with_inputs n (n_inputs n ++ [S next])) in
             let! (s, next) := build fuel false p s (S next) in
             visit ps s next
         end) parents (put_node s id (new_node i id output prefetch)) id
  | Interleaved i parents =>
      let s := put_node s id (new_node i id output false) in
      let! subs :=
        (fix all (ps : list stats) {struct ps} : res (list summary) :=
           match ps with
           | [] => Ok []
           | p :: ps =>
               let! (sub, _) := build fuel true p [] 0 in
               let! sub := populate_ratio fuel sub in
               let! subs := all ps in
               Ok (sub :: subs)
           end) parents in
      if same_length subs then Ok (complete_summary s (merge_all subs) (id + 1), id)
      else Ok (s, id)
  | InWorker i inside =>
      let s := put_node s id (new_node i id output true) in
      match inside with
      | None => Ok (complete_summary s (merge_all []) (id + 1), id)
      | Some p =>
          let! (sub, _) := build fuel true p [] 0 in
          let! sub := populate_ratio fuel sub in
          Ok (complete_summary s (merge_all [sub]) (id + 1), id)
      end
  end.
(** _get_execution_summary, stats.py:943-948 *)
Definition execution_summary (fuel : nat) (t : stats) : res summary :=
  let! (s, _) := build fuel true t [] 0 in populate_ratio fuel s.
End Ratio.

(** ** What is logged *)

(** list.sort(key=...): stable. *)
Fixpoint insert_by_ratio (n : node) (l : list node) : list node :=
  match l with
  | [] => [n]
  | m :: l => if Qle_bool (n_ratio n) (n_ratio m) then n :: m :: l else m :: insert_by_ratio n l
  end.
Definition sort_by_ratio (l : list node) : list node := fold_right insert_by_ratio [] l.
(** sort_nodes_by_wait_time_ratio, stats_utils.py:53-62 *)
Definition sorted_summary (s : summary) : summary :=
  let nodes := sort_by_ratio (map snd s) in combine (seq 0 (length nodes)) nodes.
(** is_source_node and analyze_summary, stats_utils.py:29-50: whether there is a warning. *)
Fixpoint contains (sub s : string) : bool :=
  prefix sub s || match s with EmptyString => false | String _ s => contains sub s end.
Definition source_node_name : string := "SourceMapDataset"%string.
Definition warns (s : summary) : bool := contains source_node_name (i_name (n_info (node_at s (length s - 1)))).
(** lines 902-903, 914-915 *)
Definition warns_of (s : summary) : bool := warns (sorted_summary s).
