(** What an execution summary should show: the pipeline drawn as a tree. *)
From Coq Require Import QArith String.
From Verif Require Import Base Tree ExecutionSummary.
Open Scope Z_scope.

(** A transformation: what it recorded, whether it prefetches, and its inputs. *)
Inductive view : Type := V (i : info) (prefetch : bool) (inputs : list view).
Definition v_info (v : view) : info := match v with V i _ _ => i end.
Fixpoint vsize (v : view) : nat := match v with V _ _ ks => S (list_sum (map vsize ks)) end.

(** The keys of the inputs when the nodes are numbered depth first, the inputs of a node from left to right. *)
Fixpoint starts (next : nat) (ks : list view) : list nat :=
  match ks with [] => [] | k :: ks => next :: starts (next + vsize k) ks end.
(** The summary [s] shows the tree [v], with the node [id] for its root. *)
Fixpoint shows (s : summary) (id : nat) (v : view) : Prop :=
  match v with
  | V i prefetch ks =>
      n_info (node_at s id) = i /\ n_prefetch (node_at s id) = prefetch /\ n_inputs (node_at s id) = starts (S id) ks /\
      (fix all (next : nat) (ks : list view) : Prop :=
         match ks with [] => True | k :: ks => shows s next k /\ all (next + vsize k)%nat ks end) (S id) ks
  end.
(** The summary shows this tree and nothing else; the keys are the ids, and the root is the only output. *)
Definition draws (s : summary) (v : view) : Prop :=
  map fst s = seq 0 (vsize v) /\ shows s 0 v /\
  forall k n, In (k, n) s -> n_id n = k /\ n_output n = Nat.eqb k 0.

(** What transformations that do the same in several places recorded together. *)
Definition add_info (a b : info) : info :=
  mkInfo (i_name a) (i_total a + i_total b) (Z.min (i_min a) (i_min b)) (Z.max (i_max a) (i_max b))
         (i_count a + i_count b) (i_consumed a + i_consumed b) (i_produced a + i_produced b).
Fixpoint vmerge (v w : view) : view :=
  match v, w with
  | V i p ks, V j _ ls => V (add_info i j) p
      ((fix zip (ks ls : list view) : list view :=
          match ks, ls with k :: ks, l :: ls => vmerge k l :: zip ks ls | _, _ => [] end) ks ls)
  end.
(** The shape of a tree. *)
Inductive shape : Type := Sh (prefetch : bool) (inputs : list shape).
Fixpoint shape_of (v : view) : shape := match v with V _ p ks => Sh p (map shape_of ks) end.

(** The tree of a pipeline.  The iterators that are interleaved are put together to one input; they are left out when they do not
    have the same number of nodes.  The pipeline inside a worker is the input of the node in the main process. *)
Definition consuming (i : info) (bytes : Z) : info :=
  mkInfo (i_name i) (i_total i) (i_min i) (i_max i) (i_count i) bytes (i_produced i).
Definition same_size (vs : list view) : bool :=
  match vs with [] => true | v :: vs => forallb (fun w => Nat.eqb (vsize w) (vsize v)) vs end.
Definition over (i : info) (prefetch : bool) (vs : list view) : view :=
  match vs with
  | [] => V (consuming i 0) prefetch []
  | v :: vs => let m := fold_left vmerge vs v in V (consuming i (i_produced (v_info m))) prefetch [m]
  end.
Fixpoint expected (t : stats) : view :=
  match t with
  | Plain i prefetch ps => V i prefetch (map expected ps)
  | Interleaved i ps => let vs := map expected ps in if same_size vs then over i false vs else V i false []
  | InWorker i None => over i true []
  | InWorker i (Some p) => over i true [expected p]
  end.

(** No interleaving and no worker. *)
Fixpoint simple (t : stats) : bool :=
  match t with Plain _ _ ps => forallb simple ps | Interleaved _ _ | InWorker _ _ => false end.
Fixpoint all_but_last (l : list stats) : list stats :=
  match l with [] => [] | [_] => [] | x :: l => x :: all_but_last l end.
(** The pipelines of C66: a prefetch has at most one parent; interleaving and workers are found below the last parent
    of a node only; interleaved iterators with the same number of nodes have the same shape. *)
Inductive pipeline : stats -> Prop :=
| pipeline_plain i prefetch ps : Forall pipeline ps -> forallb simple (all_but_last ps) = true ->
    (prefetch = true -> (length ps <= 1)%nat) -> pipeline (Plain i prefetch ps)
| pipeline_interleaved i ps : Forall pipeline ps ->
    (same_size (map expected ps) = true -> forall p q, In p ps -> In q ps -> shape_of (expected p) = shape_of (expected q)) ->
    pipeline (Interleaved i ps)
| pipeline_idle i : pipeline (InWorker i None)
| pipeline_worker i p : pipeline p -> pipeline (InWorker i (Some p)).

(** The number of Stats objects. *)
Fixpoint tsize (t : stats) : nat :=
  match t with
  | Plain _ _ ps | Interleaved _ ps => S (list_sum (map tsize ps))
  | InWorker _ None => 1
  | InWorker _ (Some p) => S (tsize p)
  end.
Fixpoint infos (t : stats) : list info :=
  match t with
  | Plain i _ ps | Interleaved i ps => i :: flat_map infos ps
  | InWorker i None => [i]
  | InWorker i (Some p) => i :: infos p
  end.

(** ** Waiting times *)

(** The time of the nodes that run one after the other, from a node down to the next prefetch. *)
Fixpoint group_time (v : view) : Z :=
  match v with V i p ks => i_total i + if p then 0 else fold_right Z.add 0 (map group_time ks) end.
(** Every prefetch has at most one input, and some time was recorded below it. *)
Inductive measured : view -> Prop :=
| measured_v i p ks : (p = true -> (length ks <= 1)%nat /\ Forall (fun k => group_time k <> 0) ks) ->
    Forall measured ks -> measured (V i p ks).

(** The summaries differ in the ratios only. *)
Definition like_node (n n' : node) : Prop :=
  n_id n' = n_id n /\ n_info n' = n_info n /\ n_inputs n' = n_inputs n /\ n_output n' = n_output n /\ n_prefetch n' = n_prefetch n.

(** The share of the waiting time of each node, in the order of the ids.  The nodes of a group share [factor] in
    proportion to their time; what falls to a prefetch is shared by the group below it. *)
Fixpoint waits (rnd : Q -> Q) (factor : Q) (group : Z) (v : view) : list Q :=
  match v with
  | V i prefetch ks =>
      let r := rnd (factor * (inject_Z (i_total i) / inject_Z group))%Q in
      if prefetch then match ks with [] => [r] | k :: _ => 0%Q :: waits rnd r (group_time k) k end
      else r :: flat_map (waits rnd factor group) ks
  end.
Definition qsum (l : list Q) : Q := fold_right Qplus 0%Q l.
Definition node_ratios (s : summary) : list Q := map (fun kn => n_ratio (snd kn)) s.

(** ** What was recorded *)

(** A node whose report is called several times: each time with the records and the sizes in its buffers. *)
Definition after_reports (name : string) (calls : list (list (Z * Z) * list Z * list Z)) : info :=
  fold_left (fun i call => report i (fst (fst call)) (snd (fst call)) (snd call)) calls (fresh_info name).
Definition zsum (l : list Z) : Z := fold_right Z.add 0 l.
(** All records that count elements. *)
Definition records (calls : list (list (Z * Z) * list Z * list Z)) : list (Z * Z) :=
  filter (fun r => 0 <? snd r) (flat_map (fun call => fst (fst call)) calls).
(** The infos in a tree. *)
Fixpoint view_infos (v : view) : list info := match v with V i _ ks => i :: flat_map view_infos ks end.
