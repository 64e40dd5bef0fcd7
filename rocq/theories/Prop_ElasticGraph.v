(** C73: what an elastic iterator accepts, and which shards each host reads. *)
From Verif Require Import Base MultiprocessSpec Multiprocess_proofs LoaderFlat_proofs ElasticGraph ElasticGraphSpec ElasticGraph_proofs.
From Coq Require Import Permutation.

Local Ltac spl := repeat match goal with |- _ /\ _ => split end.

Section C73.
Context {X : Type}.
Notation ds := (ds X).

(** An IterDataset is accepted exactly when no multiprocessing options are given, there is no zip, mix, prefetch or
    MapDataset.filter anywhere among the datasets it was made from, and it ends in an interleave or in a ParquetIterDataset. *)
Theorem C73_accepts mp num_threads h k (d : ds) : iter_graph d ->
  (exists d', elastic_new mp num_threads h k d = Ok d') <->
  (mp = false /\ ~ contains [CFilterMap; CZip; CMix; CPrefetch] d /\ exists l, shards_of d l).
Proof.
  intros Hg. assert (Hi : is_iter d = true).
  { destruct Hg as [l|l| |c p Hc Hp|c ps Hc Hn Hps|m Hm]; try easy; cbn in Hc; intuition (subst; easy). }
  assert (Hsplit : contains [CFilterMap; CZip; CMix; CPrefetch] d <-> contains [CFilterMap] d \/ contains [CZip; CMix; CPrefetch] d).
  { split.
    - intros (x & c & Hx & Hc & [Hq|Hq]); [left|right]; exists x, c; (spl; [easy|easy|]); [now left|easy].
    - intros [H|H]; revert H; apply contains_incl; intros c Hc; cbn in *; tauto. }
  unfold elastic_new. rewrite Hi. destruct (check_filter d) as [[Ef Hf]|[Ef Hf]]; rewrite Ef; cbn [bind].
  2:{ split; [intros [d' H]; discriminate|]. intros (_ & H & _). tauto. }
  destruct mp; [split; [intros [d' H]; discriminate|intros [H _]; discriminate]|].
  destruct (check_unsupported d) as [[Eu Hu]|[Eu Hu]]; rewrite Eu; cbn [bind].
  2:{ split; [intros [d' H]; discriminate|]. intros (_ & H & _). tauto. }
  destruct (graph_bottom d Hg Hu) as [[l Hl]|[Hl Hs]].
  - destruct (slice_shards h k d l Hl) as (d' & Es & _ & _ & _ & Hn & _). rewrite Es. cbn [bind].
    destruct (find_sliceable d'); [|easy]. split; intros _; [|now exists d']. spl; [easy|tauto|now exists l].
  - rewrite Hs. cbn [bind]. split; [intros [d' H]; discriminate|]. intros (_ & _ & l & H). now destruct (Hl l).
Qed.
(** What is not accepted raises ValueError, or NotImplementedError for multiprocessing options; nothing else can happen. *)
Theorem C73_rejects mp num_threads h k (d : ds) : iter_graph d -> forall r, elastic_new mp num_threads h k d = r ->
  (exists d', r = Ok d') \/ (r = Raise NotImplementedError /\ mp = true) \/
  (r = Raise ValueError /\ (mp = false \/ contains [CFilterMap] d)).
Proof.
  intros Hg r <-. unfold elastic_new. destruct (check_filter d) as [[Ef Hf]|[Ef Hf]]; rewrite Ef; cbn [bind]; [|now right; right; auto].
  destruct (is_iter d); [|left; eauto]. destruct mp; [now right; left|].
  destruct (check_unsupported d) as [[Eu Hu]|[Eu Hu]]; rewrite Eu; cbn [bind]; [|now right; right; auto].
  destruct (graph_bottom d Hg Hu) as [[l Hl]|[Hl Hs]].
  - destruct (slice_shards h k d l Hl) as (d' & Es & _ & _ & _ & Hn & _). rewrite Es. cbn [bind].
    destruct (find_sliceable d'); [|easy]. left. eauto.
  - rewrite Hs. now right; right; auto.
Qed.
(** A MapDataset is accepted exactly when there is no filter anywhere in it. *)
Theorem C73_map_datasets mp num_threads h k (d : ds) : map_graph d ->
  (elastic_new mp num_threads h k d = Ok d /\ ~ contains [CFilterMap] d) \/
  (elastic_new mp num_threads h k d = Raise ValueError /\ contains [CFilterMap] d).
Proof.
  intros Hg. assert (Hi : is_iter d = false).
  { destruct Hg as [|c ps Hc Hn Hps]; [easy|]. cbn in Hc; intuition (subst; easy). }
  unfold elastic_new. rewrite Hi. destruct (check_filter d) as [[Ef Hf]|[Ef Hf]]; rewrite Ef; cbn [bind]; [left|right]; easy.
Qed.

Lemma new_slices mp num_threads h k (d d' : ds) l : iter_graph d -> shards_of d l -> elastic_new mp num_threads h k d = Ok d' -> set_slice h k d = Ok d'.
Proof.
  intros Hg Hl E. assert (Hi : is_iter d = true).
  { destruct Hl as [l|l|c p l Hc Hp]; try easy; cbn in Hc; intuition (subst; easy). }
  unfold elastic_new in E. rewrite Hi in E. destruct (check_filter d) as [[Ef Hf]|[Ef Hf]]; rewrite Ef in E; cbn [bind] in E; [|easy].
  destruct mp; [easy|]. destruct (check_unsupported d) as [[Eu Hu]|[Eu Hu]]; rewrite Eu in E; cbn [bind] in E; [|easy].
  destruct (slice_shards h k d l Hl) as (d1 & Es & _ & _ & _ & Hn & _). rewrite Es in E |- *. cbn [bind] in E.
  destruct (find_sliceable d1); [congruence|easy].
Qed.
(** The first use of an accepted IterDataset reads the shards h, h + k, h + 2 k, ... of host h of k, exactly when the global batch
    size, if positive, is a multiple of the number of hosts, no worker process is between the iterator and the shards, and it is
    not a ParquetIterDataset of which the host has exactly one file.  Otherwise it raises ValueError. *)
Theorem C73_first_use mp num_threads h k batch (d d' : ds) l : iter_graph d -> shards_of d l -> elastic_new mp num_threads h k d = Ok d' ->
  let mine := stride k h l in
  let fine := (batch <= 0 \/ batch mod Z.of_nat k = 0) /\ ~ contains [CProcess] d /\ ~ (on_parquet d /\ length mine = 1%nat) in
  (first_use batch k d' = Ok mine /\ fine) \/ (first_use batch k d' = Raise ValueError /\ ~ fine).
Proof.
  intros Hg Hl E. apply (new_slices mp num_threads h k d d' l Hg Hl) in E.
  destruct (slice_shards h k d l Hl) as (d1 & Es & Hs & Ho & Hc & Hn & _). rewrite Es in E. injection E as <-. cbv zeta.
  unfold first_use. destruct (find_sliceable d1); [|easy]. rewrite <- (Hc [CProcess]), <- Ho.
  destruct (batch >? 0) eqn:Eb.
  - destruct (batch mod Z.of_nat k =? 0) eqn:Em; cbn [bind].
    + cbn [iter_of map find_iter first_some].
      destruct (find_shards d1 _ Hs) as [(Ef & Hno & Hp)|(Ef & Hor)]; rewrite Ef; [left|right]; (split; [easy|]).
      * spl; [right; lia|easy|easy].
      * tauto.
    + right. split; [easy|]. intros [[H|H] _]; lia.
  - cbn [bind]. destruct (find_shards d1 _ Hs) as [(Ef & Hno & Hp)|(Ef & Hor)]; rewrite Ef; [left|right]; (split; [easy|]).
    + spl; [left; lia|easy|easy].
    + tauto.
Qed.
(** If the first use succeeds on every host, every shard is read by exactly one of them. *)
Theorem C73_every_shard_once mp num_threads k batch (d : ds) l (ds' : nat -> ds) (mine : nat -> list ds) : (0 < k)%nat -> iter_graph d -> shards_of d l ->
  (forall h, (h < k)%nat -> elastic_new mp num_threads h k d = Ok (ds' h) /\ first_use batch k (ds' h) = Ok (mine h)) ->
  Permutation (concat (map mine (seq 0 k))) l.
Proof.
  intros Hk Hg Hl H. assert (E : map mine (seq 0 k) = map (fun h => stride k h l) (seq 0 k)).
  { apply map_ext_in. intros h Hh. apply in_seq in Hh. destruct (H h ltac:(lia)) as [E1 E2].
    destruct (C73_first_use mp num_threads h k batch d (ds' h) l Hg Hl E1) as [[E _]|[E _]]; congruence. }
  rewrite E. clear - Hk. pose proof (strides_permute k (map (fun x => [x]) l) Hk) as P.
  assert (C : forall m : list ds, concat (map (fun x => [x]) m) = m) by (induction m as [|x m IH]; [easy|cbn; now rewrite IH]).
  rewrite C in P. erewrite map_ext in P; [exact P|]. intros i. cbn beta. rewrite <- map_stride. apply C.
Qed.
(** The number of threads in the read options has no effect on an IterDataset: the interleave of slices that elastic_iterator.py:423-432
    makes for them is never made. *)
Theorem C73_threads_ignored mp t t' h k (d : ds) : iter_graph d -> elastic_new mp t h k d = elastic_new mp t' h k d.
Proof.
  intros Hg. unfold elastic_new. destruct (check_filter d) as [[Ef Hf]|[Ef Hf]]; rewrite Ef; cbn [bind]; [|easy].
  destruct (is_iter d); [|easy]. destruct mp; [easy|]. destruct (check_unsupported d) as [[Eu Hu]|[Eu Hu]]; rewrite Eu; cbn [bind]; [|easy].
  destruct (graph_bottom d Hg Hu) as [[l Hl]|[Hl Hs]].
  - destruct (slice_shards h k d l Hl) as (d' & Es & _ & _ & _ & Hn & _). rewrite Es. cbn [bind]. now destruct (find_sliceable d').
  - now rewrite Hs.
Qed.

(** A job over Parquet files with at least as many files as hosts, but less than twice as many, cannot run: the last host has one
    file, its iterator is not one of shards, and the first element raises ValueError although the dataset was accepted. *)
Theorem C73_one_file_refuted num_threads k batch (files : list X) : (0 < k)%nat -> (k <= length files < 2 * k)%nat ->
  let d := Ds CIter [Parquet files] in
  exists d', elastic_new false num_threads (k - 1) k d = Ok d' /\ first_use batch k d' = Raise ValueError.
Proof.
  intros Hk Hn d. assert (Hg : iter_graph d) by (constructor; [now left|constructor]).
  assert (Hl : shards_of d (map (fun p => Parquet [p]) files)) by (constructor; [now left|constructor]).
  destruct (proj2 (C73_accepts false num_threads (k - 1) k d Hg)) as [d' E].
  { spl; [easy| |eauto]. intros H. apply contains_one in H. destruct H as [H|H]; [cbn in H; intuition discriminate|]. revert H. now apply contains_leaf. }
  exists d'. split; [exact E|].
  destruct (C73_first_use false num_threads (k - 1) k batch d d' _ Hg Hl E) as [[_ (_ & _ & Hp)]|[Ef _]]; [exfalso|exact Ef]. apply Hp.
  split; [constructor; constructor|].
  set (m := map (fun p => Parquet [p]) files). assert (Hm : length m = length files) by apply map_length. clearbody m.
  assert (N : forall j, nth_error (stride k (k - 1) m) j = nth_error m (k - 1 + j * k)) by (intros j; now apply nth_stride).
  destruct (stride k (k - 1) m) as [|x [|y s]]; [exfalso|easy|exfalso].
  - specialize (N 0%nat). cbn in N. symmetry in N. apply nth_error_None in N. lia.
  - specialize (N 1%nat). cbn [nth_error] in N. symmetry in N. assert (k - 1 + 1 * k < length m)%nat by (apply nth_error_Some; congruence). lia.
Qed.
(** The checks do not look inside an interleave, and mp_prefetch makes one: with it on top every dataset is accepted, also with zip,
    mix, prefetch and filter; the hosts then share the workers, and a host beyond their number has none. *)
Theorem C73_mp_prefetch_refuted num_threads h k W (d : ds) : (0 < W)%nat ->
  exists d' workers, elastic_new false num_threads h k (mp_prefetch W d) = Ok d' /\ length workers = W /\
    first_use 0 k d' = Ok (stride k h workers) /\ ((0 < k)%nat -> (W <= h)%nat -> first_use 0 k d' = Ok []).
Proof.
  intros HW. assert (E : exists ws, mp_prefetch W d = Ds CSame [Interleave ws] /\ length ws = W).
  { destruct W as [|[|W]]; [lia|eexists; split; [reflexivity|reflexivity]|]. eexists. split; [reflexivity|]. now rewrite map_length, seq_length. }
  destruct E as (ws & -> & Hw). exists (Ds CSame [Interleave (stride k h ws)]), ws. spl; [reflexivity|exact Hw|reflexivity|].
  intros Hk Hh. cbn. f_equal. destruct (stride k h ws) as [|x s] eqn:Es; [easy|exfalso].
  pose proof (nth_stride k ws Hk h 0) as N. rewrite Es in N. cbn [nth_error] in N. symmetry in N. assert (h + 0 * k < length ws)%nat by (apply nth_error_Some; congruence). lia.
Qed.
End C73.

(** Three hosts over five files of an interleave, batched. *)
Definition five : ds nat := Interleave (map (fun n => Parquet [n; n]) [0; 1; 2; 3; 4]%nat).
Definition piped : ds nat := Ds CIter [Ds CSame [Ds CIter [five]]].
Example C73_example :
  iter_graph piped /\ shards_of piped (map (fun n => Parquet [n; n]) [0; 1; 2; 3; 4]%nat) /\ ~ contains [CProcess] piped /\
  map (fun h => let! d := elastic_new false 16 h 3 piped in first_use 6 3 d) [0; 1; 2]%nat =
    map (fun l => Ok (map (fun n => Parquet [n; n]) l)) [[0; 3]; [1; 4]; [2]]%nat /\
  (let! d := elastic_new false 16 0 3 piped in first_use 7 3 d) = Raise ValueError.
Proof.
  unfold piped, five. spl; try reflexivity.
  - repeat (constructor; [cbn; tauto|]). constructor.
  - repeat (constructor; [cbn; tauto|]). constructor.
  - rewrite !contains_one. intros [H|[H|[H|H]]]; try (cbn in H; intuition discriminate). revert H. now apply contains_leaf.
Qed.
(** A MapDataset, filtered, made an IterDataset: rejected, and accepted with mp_prefetch on top. *)
Definition filtered : ds nat := Ds CIter [Ds CPrefetch [Ds CFilterMap [Ds CMap [Ds CMapSource []]]]].
Example C73_rejects_example :
  iter_graph filtered /\ map_graph (Ds CFilterMap [Ds CMap [@Ds nat CMapSource []]]) /\
  elastic_new false 16 0 2 filtered = Raise ValueError /\ elastic_new true 16 0 2 piped = Raise NotImplementedError /\
  (exists d, elastic_new false 16 0 2 (mp_prefetch 4 filtered) = Ok d) /\
  elastic_new false 16 0 2 (Ds CIter [@Ds nat CIterSource []]) = Raise ValueError.
Proof.
  assert (Hm : map_graph (Ds CFilterMap [Ds CMap [@Ds nat CMapSource []]])).
  { apply mg_map; [cbn; tauto|easy|]. intros p [<-|[]]. apply mg_map; [cbn; tauto|easy|]. intros p [<-|[]]. constructor. }
  spl; try reflexivity; [|exact Hm|eexists; reflexivity]. apply ig_one; [cbn; tauto|]. now constructor.
Qed.
Example C73_one_file_example :
  (let! d := elastic_new false 16 0 2 (Ds CIter [Parquet [0; 1; 2]%nat]) in first_use 4 2 d) = Ok [Parquet [0%nat]; Parquet [2%nat]] /\
  (let! d := elastic_new false 16 1 2 (Ds CIter [Parquet [0; 1; 2]%nat]) in first_use 4 2 d) = Raise ValueError.
Proof. split; reflexivity. Qed.
