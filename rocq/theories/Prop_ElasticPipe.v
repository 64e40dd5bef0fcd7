(** Property C70: jobs of several hosts over an interleave with transformations on top, saved
    and restored with another number of hosts. *)
From Verif Require Import Base ListFacts Spec MapDatasets Iter IterSpec IterLaw IterBasic_proofs Interleave InterleaveSpec Interleave_proofs Elastic MultiprocessSpec ElasticJob ElasticJob_proofs ElasticPipe ElasticPipeSpec ElasticPipe_proofs Prop_Iter Prop_Interleave Prop_ElasticJob.

(** ** Specification *)

(** The constructor accepts every number of hosts of the job. *)
Definition accepted (check : nat -> res unit) (n : nat) (later : list (nat * (nat -> nat))) : Prop :=
  Forall (fun n => check n = Ok tt) (n :: map fst later).
(** What the hosts give, by generation and host, when they read the elements [reads]: [T n] is
    what the transformations of [n] hosts make of a host's elements. *)
Definition made {A B} (T : nat -> list A -> list B) (ns : list nat) (reads : list (list (list (nat * A)))) : list (list (list B)) :=
  map (fun nr => map (fun xs => T (fst nr) (map snd xs)) (snd nr)) (combine ns reads).

(** ** C70 *)
Section Jobs.
Context {A B : Type}.
Variables (ps : list (Iter A)) (ls : list (list A)) (cycle_length : nat) (keep : bool).
Variable truthy : {d : nat & ick (nth_it ps d)} -> bool.
Variable used : bool.
Variables (st : nat -> stage A B) (check : nat -> res unit) (T : nat -> list A -> list B).

Lemma checked_all n later : accepted check n later -> checked check n later.
Proof.
  revert n. induction later as [|[n' ks'] later IH]; intros n H; inversion_clear H as [|? ? H1 H2]; cbn [checked]; [auto|]. split; [exact H1|]. now apply IH.
Qed.
Lemma counts_resizes n later : resizes (length ps) n later -> counts_ok (embed ps) n later.
Proof.
  revert n. induction later as [|[n' ks'] later IH]; intros n H; cbn [resizes counts_ok] in *; rewrite embed_length; [exact H|].
  destruct H as (H1 & H2 & H3). split; [exact H1|]. split; [exact H2|]. now apply IH.
Qed.

Lemma start_all n rep crep : (forall n, (0 < n <= length (embed ps))%nat -> check n = Ok tt -> faithful (st n) (T n)) -> check n = Ok tt -> (0 < n <= length (embed ps))%nat ->
  job_has (embed ps) cycle_length ls rep crep n (job_start (embed ps) cycle_length n) (fun j => nth j ls []) ->
  has (embed ps) cycle_length keep truthy st ls rep crep n (pipe_start (embed ps) cycle_length keep truthy st n) (fun j => nth j ls []).
Proof.
  intros Hst Hck Hn HJ. split.
  - unfold inners, pipe_start. erewrite map_ext; [exact HJ|]. intros h. cbn beta. destruct (Hst n Hn Hck) as (_ & _ & _ & Hi & _). exact (Hi (source (embed ps) cycle_length keep truthy n h)).
  - intros j. unfold longest. rewrite nth_of_error. destruct (nth_error ls j) as [l|] eqn:E; [|cbn; lia].
    pose proof (proj1 (list_max_le (map (@length A) ls) _) (Nat.le_refl _)) as Hall. rewrite Forall_forall in Hall. apply Hall, in_map. now apply nth_error_In in E.
Qed.

(** The hosts read every element of every shard once, shard by shard in order, and give what the
    transformations make of the elements they read.  [reads] are the elements read, with the
    number of the shard they come from, by generation and host.  [rests] are those that the
    hosts of the last generation still read.  Guards: the transformations are [plain] (map,
    filter, batch), and [pipe_ordered] (as in C37_job). *)
Theorem C70_job :
  Forall2 (fun p l => lawful p l true used true) ps ls -> (0 < cycle_length)%nat -> (forall c, truthy c = true) ->
  (forall n, (0 < n <= length ps)%nat -> check n = Ok tt -> plain (st n) (T n)) ->
  exists N, forall fuel n ks later, (N <= fuel)%nat -> resizes (length ps) n later -> accepted check n later ->
    let D := embed ps in
    pipe_ordered D cycle_length keep truthy st fuel n ks later (pipe_start D cycle_length keep truthy st n) = true ->
    exists (reads : list (list (list (nat * A)))) n' ss (rests : list (list (nat * A))),
      pipe_job D cycle_length keep truthy st check fuel n ks later (pipe_start D cycle_length keep truthy st n)
      = Ok (made T (n :: map fst later) reads, existT _ n' ss) /\
      length reads = S (length later) /\ length rests = n' /\
      (forall h rest, nth_error rests h = Some rest ->
        drain (host_it D cycle_length keep truthy st n' h) fuel (S (length (T n' (map snd rest)))) (ss h) = (T n' (map snd rest), Stop)) /\
      forall j, of_dataset j (concat (concat reads) ++ concat rests) = nth j ls [].
Proof.
  intros HL Hcyc Ht Hpl. destruct (embed_family used true ps ls truthy HL Ht) as (N & rep & crep & F & _).
  assert (Hst : forall n, (0 < n <= length (embed ps))%nat -> check n = Ok tt -> faithful (st n) (T n)) by (intros n Hn Hk; rewrite embed_length in Hn; now apply plain_faithful, Hpl).
  destruct (uniform (embed ps) cycle_length keep truthy st check T ls N Hcyc Hst) as (N1 & HN1).
  exists (Nat.max N1 (job_enough (embed ps) N)). intros fuel n ks later Hf Hres Hacc D Hord. fold D in Hst, HN1, F, Hf.
  pose proof (counts_resizes n later Hres) as Hc. fold D in Hc. assert (Hn : (0 < n <= length D)%nat) by (destruct later as [|[? ?] ?]; apply Hc).
  pose proof (start_has D cycle_length truthy ls used true N rep crep F Hcyc n ltac:(lia) ltac:(lia)) as HJ.
  pose proof (start_all n rep crep Hst (Forall_inv Hacc) Hn HJ) as HJ0.
  destruct (pipe_ok D cycle_length keep truthy st check T ls used N rep crep F Hcyc Ht Hst N1 HN1 fuel ltac:(lia) ltac:(lia) later n ks _ _ Hc (checked_all n later Hacc) HJ0 Hord)
    as (reads & n' & ss & rem & E & Hrl & Hlast & Hn' & (HJ' & HLr) & Hr).
  assert (Hck' : check n' = Ok tt).
  { rewrite Hlast. clear - Hacc. unfold accepted in Hacc. revert Hacc. generalize n. induction (map fst later) as [|x xs IH]; intros y H; [exact (Forall_inv H)|]. apply (IH x), (Forall_inv_tail H). }
  destruct (job_outs D cycle_length ls rep crep Hcyc n' _ rem HJ') as (ros & Hol & HO). destruct HJ' as (Hsl & Hrem & HJ').
  exists reads, n', ss, (map (fun ho => relabel n' (fst ho) (snd ho)) (combine (seq 0 n') ros)).
  split; [exact E|]. split; [exact Hrl|]. split; [rewrite map_length, combine_length, seq_length; lia|]. split.
  - intros h rest Er. rewrite nth_error_map, nth_combine_seq in Er by exact Hol. destruct (nth_error ros h) as [ro|] eqn:Ero; [|easy]. cbn in Er. injection Er as <-.
    assert (Hh : (h < n')%nat) by (apply nth_error_lt in Ero; lia).
    assert (Hho : host_has D cycle_length ls rep crep n' rem h (inner (st n') (source D cycle_length keep truthy n' h) (ss h)) ro).
    { apply (HO h _ ro); [|exact Ero]. destruct (nth_error_some (inners D cycle_length keep truthy st n' ss) h ltac:(lia)) as (s & Es). rewrite Es. apply inners_nth in Es as [_ ->]. reflexivity. }
    unfold relabel. rewrite map_map. cbn [snd].
    refine (proj2 (host_reads D cycle_length keep truthy st check T ls used N rep crep F Hcyc Hst N1 HN1 n' h fuel 0 (ss h) rem ro Hn' Hck' Hh ltac:(lia) _ Hho)).
    apply (host_out_bound D cycle_length st check T ls rep crep Hcyc Hst n' h rem _ ro ltac:(lia) Hrem HLr Hho).
  - intros j. rewrite of_dataset_app, (relabelled cycle_length Hcyc) by (auto; lia). rewrite (rem_outs D cycle_length ls rep crep Hcyc n' _ rem ros ltac:(lia) Hsl Hol HO). apply Hr.
Qed.

(** The second guard holds in particular if something is left of every shard each time the job
    is saved: [w n] is how many elements one element of the transformations stands for at most
    (so no filter, and no incomplete batch is dropped). *)
Fixpoint read_at_most (w : nat -> nat) (n : nat) (ks : nat -> nat) (later : list (nat * (nat -> nat))) : nat :=
  match later with [] => 0%nat | (n', ks') :: later' => (list_sum (map (fun h => w n * ks h)%nat (seq 0 n)) + read_at_most w n' ks' later')%nat end.
Theorem C70_unexhausted w :
  Forall2 (fun p l => lawful p l true used true) ps ls -> (0 < cycle_length)%nat -> (forall c, truthy c = true) ->
  (forall n, (0 < n <= length ps)%nat -> check n = Ok tt -> plain (st n) (T n)) -> (forall n l, (0 < n <= length ps)%nat -> check n = Ok tt -> (length l <= w n * length (T n l))%nat) ->
  exists N, forall fuel n ks later, (N <= fuel)%nat -> resizes (length ps) n later -> accepted check n later ->
    (forall j, (j < length ps)%nat -> (read_at_most w n ks later < length (nth j ls []))%nat) ->
    pipe_ordered (embed ps) cycle_length keep truthy st fuel n ks later (pipe_start (embed ps) cycle_length keep truthy st n) = true.
Proof.
  intros HL Hcyc Ht Hpl Hw. destruct (embed_family used true ps ls truthy HL Ht) as (N & rep & crep & F & _).
  assert (Hst : forall n, (0 < n <= length (embed ps))%nat -> check n = Ok tt -> faithful (st n) (T n)) by (intros n Hn Hk; rewrite embed_length in Hn; now apply plain_faithful, Hpl).
  destruct (uniform (embed ps) cycle_length keep truthy st check T ls N Hcyc Hst) as (N1 & HN1).
  exists (Nat.max N1 (job_enough (embed ps) N)). intros fuel n ks later Hf Hres Hacc Hlim. set (D := embed ps) in *.
  pose proof (counts_resizes n later Hres) as Hc. fold D in Hc. assert (Hn : (0 < n <= length D)%nat) by (destruct later as [|[? ?] ?]; apply Hc).
  pose proof (start_has D cycle_length truthy ls used true N rep crep F Hcyc n ltac:(lia) ltac:(lia)) as HJ.
  pose proof (start_all n rep crep Hst (Forall_inv Hacc) Hn HJ) as HJ0.
  refine (pipe_ordered_ok D cycle_length keep truthy st check T ls used N rep crep F Hcyc Ht Hst N1 HN1 w _ fuel ltac:(lia) ltac:(lia) later n ks _ _ Hc (checked_all n later Hacc) HJ0 _).
  - intros n0 l Hn0 Hk0. apply Hw; [|exact Hk0]. unfold D in Hn0. now rewrite embed_length in Hn0.
  - intros j Hj. unfold D in Hj. rewrite embed_length in Hj. specialize (Hlim j Hj).
    assert (El : forall l n0 k0, pipe_budget w n0 k0 l = read_at_most w n0 k0 l) by (induction l as [|[? ?] l IH]; intros; cbn; [easy|]; now rewrite IH). now rewrite El.
Qed.
End Jobs.

(** ** Batches *)

(** ElasticIterator with a global batch size [b] that every number of hosts divides: what the
    hosts of a generation of [n] hosts give are the batches of [b / n] elements, of what the
    user's transformations make of the elements read. *)
Theorem C70_batches {A B E} (ps : list (Iter A)) ls cycle_length keep truthy used (b : Z) (user : stage A B) U (make : list B -> res E) g :
  Forall2 (fun p l => lawful p l true used true) ps ls -> (0 < cycle_length)%nat -> (forall c, truthy c = true) ->
  plain user U -> (forall l, make l = Ok (g l)) -> 0 < b ->
  exists N, forall fuel n ks later, (N <= fuel)%nat -> resizes (length ps) n later -> Forall (fun n => (Z.of_nat n | b)) (n :: map fst later) ->
    let D := embed ps in let st := elastic_stage b user make in
    pipe_ordered D cycle_length keep truthy st fuel n ks later (pipe_start D cycle_length keep truthy st n) = true ->
    exists (reads : list (list (list (nat * A)))) n' ss (rests : list (list (nat * A))),
      pipe_job D cycle_length keep truthy st (elastic_check b) fuel n ks later (pipe_start D cycle_length keep truthy st n)
      = Ok (made (fun n l => map g (chunks (Z.to_nat (b / Z.of_nat n)) (U l))) (n :: map fst later) reads, existT _ n' ss) /\
      length reads = S (length later) /\ length rests = n' /\
      (forall h rest, nth_error rests h = Some rest -> let left := map g (chunks (Z.to_nat (b / Z.of_nat n')) (U (map snd rest))) in
        drain (host_it D cycle_length keep truthy st n' h) fuel (S (length left)) (ss h) = (left, Stop)) /\
      forall j, of_dataset j (concat (concat reads) ++ concat rests) = nth j ls [].
Proof.
  intros HL Hcyc Ht Hpl Hg Hb.
  destruct (C70_job ps ls cycle_length keep truthy used (elastic_stage b user make) (elastic_check b) (fun n l => map g (chunks (Z.to_nat (b / Z.of_nat n)) (U l))) HL Hcyc Ht) as (N & H).
  { intros n Hn Hck. unfold elastic_check in Hck. destruct (Z.eqb_spec (b mod Z.of_nat n) 0) as [E0|E0]; [|easy].
    apply (plain_then _ _ _ user (batch_stage (b / Z.of_nat n) false make) U (fun l => map g (chunks (Z.to_nat (b / Z.of_nat n)) l)) Hpl).
    apply (plain_batch _ _ (b / Z.of_nat n) false make g); [|exact Hg]. pose proof (Z.div_mod b (Z.of_nat n) ltac:(lia)). nia. }
  exists N. intros fuel n ks later Hf Hres Hdiv D st Hord. apply H; auto.
  unfold accepted. clear - Hdiv Hres. assert (Hpos : Forall (fun n => (0 < n)%nat) (n :: map fst later)).
  { revert n Hdiv Hres. induction later as [|[n' ks'] later IH]; intros n Hdiv Hres; cbn [resizes map fst] in *; constructor; [lia|constructor|lia|]. apply IH; [now apply Forall_inv_tail in Hdiv|tauto]. }
  induction Hdiv as [|x xs Hx Hdiv IH]; inversion_clear Hpos; constructor; [|auto]. unfold elastic_check. rewrite (proj2 (Z.mod_divide b (Z.of_nat x) ltac:(lia)) Hx). reflexivity.
Qed.
(** With a number of hosts that does not divide the global batch size the constructor raises
    ValueError. *)
Theorem C70_indivisible {A B E} (ps : list (Iter A)) cycle_length keep truthy (b : Z) (user : stage A B) (make : list B -> res E) fuel n ks later :
  let D := embed ps in let st := elastic_stage b user make in
  (0 < n)%nat -> ~ (Z.of_nat n | b) ->
  pipe_job D cycle_length keep truthy st (elastic_check b) fuel n ks later (pipe_start D cycle_length keep truthy st n) = Raise ValueError.
Proof.
  intros D st Hn Hdiv. unfold st. destruct later as [|[n' ks'] later]; cbn [pipe_job]; unfold elastic_check at 1;
    (destruct (Z.eqb_spec (b mod Z.of_nat n) 0) as [E0|E0]; [|reflexivity]); exfalso; apply Hdiv; apply Z.mod_divide; [lia|exact E0|lia|exact E0].
Qed.

(** The theorems at work: five shards of 40 elements, doubled by map, in batches of 6 elements of
    all hosts, on 2 hosts, then 3, then 1. *)
Definition fives : list (Iter (option Z)) := map (fun k => retype Some (shifted k 40)) [0; 100; 200; 300; 400].
Definition fives_elements : list (list (option Z)) := map (fun k => map Some (map (fun x => x + k) (zrange 0 40))) [0; 100; 200; 300; 400].
Lemma fives_lawful : Forall2 (fun p l => lawful p l true true true) fives fives_elements.
Proof.
  unfold fives, fives_elements. induction [0; 100; 200; 300; 400] as [|k ks IH]; cbn [map]; constructor; [|exact IH].
  apply lawful_retype. exact (shifted_lawful k 40 ltac:(lia)).
Qed.
Definition doubled : stage (option Z) (option Z) := map_stage (fun x => Ok (Some (x * 2))).
Example C70_batches_example : exists N, forall fuel, (N <= fuel)%nat ->
  let D := embed fives in let st := elastic_stage 6 doubled (fun l => Ok l) in
  let later := [(3%nat, fun _ : nat => 1%nat); (1%nat, fun _ => 2%nat)] in
  exists reads n' ss rests,
  pipe_job D 2 true (fun _ => true) st (elastic_check 6) fuel 2 (fun _ => 1%nat) later (pipe_start D 2 true (fun _ => true) st 2)
  = Ok (made (fun n l => map (fun x => x) (chunks (Z.to_nat (6 / Z.of_nat n)) (map (fun e => match e with Some x => Some (x * 2) | None => None end) l))) [2%nat; 3%nat; 1%nat] reads, existT _ n' ss) /\
  length rests = n' /\ forall j, of_dataset j (concat (concat reads) ++ concat rests) = nth j fives_elements [].
Proof.
  assert (Hpl : plain doubled (map (fun e => match e with Some x => Some (x * 2) | None => None end))) by (apply (plain_map _ _ (fun x => Ok (Some (x * 2))) (fun x => Some (x * 2))); easy).
  destruct (C70_batches fives fives_elements 2 true (fun _ => true) true 6 doubled _ (fun l => Ok l) (fun l => l) fives_lawful ltac:(lia) ltac:(easy) Hpl ltac:(easy) ltac:(lia)) as (N1 & H1).
  destruct (C70_unexhausted fives fives_elements 2 true (fun _ => true) true (elastic_stage 6 doubled (fun l => Ok l)) (elastic_check 6)
              (fun n l => map (fun l => l) (chunks (Z.to_nat (6 / Z.of_nat n)) (map (fun e => match e with Some x => Some (x * 2) | None => None end) l)))
              (fun n => Z.to_nat (6 / Z.of_nat n)) fives_lawful ltac:(lia) ltac:(easy)) as (N2 & H2).
  { intros n Hn Hck. unfold elastic_check in Hck. destruct (Z.eqb_spec (6 mod Z.of_nat n) 0) as [E0|E0]; [|easy].
    refine (plain_then _ _ _ _ _ _ (fun l => map (fun l => l) (chunks (Z.to_nat (6 / Z.of_nat n)) l)) Hpl _).
    refine (plain_batch _ _ (6 / Z.of_nat n) false (fun l => Ok l) (fun l => l) _ ltac:(easy)). pose proof (Z.div_mod 6 (Z.of_nat n) ltac:(lia)). nia. }
  { intros n l Hn Hck. rewrite map_length. rewrite <- (map_length (fun e : option Z => match e with Some x => Some (x * 2) | None => None end) l) at 1.
    unfold elastic_check in Hck. destruct (Z.eqb_spec (6 mod Z.of_nat n) 0) as [E0|E0]; [|easy]. apply chunks_cover. pose proof (Z.div_mod 6 (Z.of_nat n) ltac:(lia)). nia. }
  exists (Nat.max N1 N2). intros fuel Hf D st later.
  assert (Hres : resizes (length fives) 2 later) by (cbn; lia).
  destruct (H1 fuel 2%nat (fun _ => 1%nat) later ltac:(lia) Hres) as (reads & n' & ss & rests & E & _ & Hl & _ & Hr).
  - cbn. repeat constructor; [now exists 3|now exists 2|now exists 6].
  - apply H2; [lia|exact Hres|now repeat constructor|]. intros j Hj. apply (Nat.lt_le_trans _ 40); [vm_compute; lia|]. unfold fives_elements.
    destruct j as [|[|[|[|[|j]]]]]; [..|exfalso; unfold fives in Hj; rewrite map_length in Hj; cbn [length] in Hj; lia]; cbn [nth map]; rewrite !map_length; vm_compute; lia.
  - exists reads, n', ss, rests. auto.
Qed.
(** The same in numbers, with three shards of four elements, on 3 hosts, then 2, then 1. *)
Definition three_shards := map list_h [[0; 1; 2; 3]; [10; 11; 12; 13]; [20; 21; 22; 23]].
Definition elements_of {B} (st : nat -> stage Z B) check n ks later :=
  job_elements (pipe_job three_shards 2 true (fun _ => true) st check 12 n ks later (pipe_start three_shards 2 true (fun _ => true) st n)).
Example C70_batches_numbers :
  let st := elastic_stage 6 same_stage (fun l => Ok l) in let later := [(2%nat, fun _ : nat => 1%nat); (1%nat, fun _ => 10%nat)] in
  pipe_ordered three_shards 2 true (fun _ => true) st 12 3 (fun _ => 1%nat) later (pipe_start three_shards 2 true (fun _ => true) st 3) = true /\
  elements_of st (elastic_check 6) 3 (fun _ => 1%nat) later = Some [[[[0; 1]]; [[10; 11]]; [[20; 21]]]; [[[2; 22; 3]]; [[12; 13]]]; [[[23]]]].
Proof. vm_compute. split; reflexivity. Qed.
Example C70_indivisible_example : ~ (Z.of_nat 4 | 6). Proof. intros [k H]. cbn in H. lia. Qed.

(** ** Where the guard is needed *)

(** The guard [plain].  A dataset with one of these transformations on top of the interleave is
    accepted, and with an unchanged number of hosts checkpoints are restored as usual.  But the
    number of hosts may only change with the states of the shards, and they do not contain the
    state of the transformations above. *)

(** flat_map: the first generation stops in the middle of what 20 and 11 give: 120 and 111 are
    never given. *)
Theorem C70_flat_map_refuted :
  elements_of (fun _ => flat_map_stage (fun x => Ok [x; x + 100])) (fun _ => Ok tt) 2 (fun _ => 3%nat) [(1%nat, fun _ => 30%nat)]
  = Some [[[0; 100; 20]; [10; 110; 11]]; [[1; 101; 12; 112; 2; 102; 13; 113; 3; 103; 21; 121; 22; 122; 23; 123]]].
Proof. vm_compute. reflexivity. Qed.
(** window_shuffle: the windows that the first generation has read are lost but for the element
    given: 0, 20, 10 and 11 are never given.  (Here the keys of the shuffle are such that a window is
    given in reverse order.) *)
Theorem C70_window_shuffle_refuted :
  elements_of (fun _ => window_shuffle_stage (fun _ _ => []) 3 0) (fun _ => Ok tt) 2 (fun _ => 1%nat) [(1%nat, fun _ => 30%nat)]
  = Some [[[1]; [12]]; [[3; 13; 2; 23; 22; 21]]].
Proof. vm_compute. reflexivity. Qed.
(** limit: every generation counts from 0 again: the host of the second generation gives three
    elements more. *)
Theorem C70_limit_refuted :
  elements_of (fun _ => limit_stage 3) (fun _ => Ok tt) 2 (fun _ => 3%nat) [(1%nat, fun _ => 30%nat)]
  = Some [[[0; 20; 1]; [10; 11; 12]]; [[2; 13; 3]]].
Proof. vm_compute. reflexivity. Qed.
(** If the number of hosts stays the same every host goes on from the state of its own iterator, whatever the transformations:
    the files of the shards are not used. *)
Section SameHosts.
Context {S C A B : Type}.
Variables (D : list (hiter S C A)) (cycle_length : nat) (keep : bool) (truthy : C -> bool) (st : nat -> stage A B).
Notation hit := (host_it D cycle_length keep truthy st).
Let state n (ss : forall h, ist (hit n h)) h := jsonck (hit n h) (get_state (hit n h) (ss h)).
Lemma sh_bind {X Y} (r : res X) (f : X -> res Y) y : bind r f = Ok y -> exists x, r = Ok x /\ f x = Ok y.
Proof. destruct r; [eauto|discriminate|discriminate]. Qed.
Lemma own_files n ss : forall hs parts,
  sequence (map (fun h => pipe_host_save D cycle_length keep truthy st n h (ss h)) hs) = Ok parts ->
  (forall h, In h hs -> read_file (concat parts) (ProcessFile (Z.of_nat h) (Z.of_nat n)) = Some (inr (existT _ (n, h) (state n ss h)))) /\
  (hs <> [] -> checkpoint_process_count (concat parts) = Z.of_nat n) /\ (0 <= checkpoint_process_count (concat parts) <= Z.of_nat n).
Proof.
  induction hs as [|h hs IH]; intros parts E; cbn [map sequence] in E.
  - injection E as <-. cbn. split; [easy|]. split; [easy|lia].
  - apply sh_bind in E as (part & Ep & E). apply sh_bind in E as (parts' & Es & E). injection E as <-.
    destruct (IH parts' Es) as (H1 & _ & H3). clear IH. cbn [concat].
    unfold pipe_host_save in Ep. apply sh_bind in Ep as (l & _ & Ep). injection Ep as <-. unfold save_writes. rewrite <- app_assoc.
    set (shards := map _ (get_shard_states _ _ _)). fold (state n ss h). cbn [app].
    assert (Hr : forall k rest, read_file (map (fun jc => (ShardFile (fst jc), snd jc)) shards ++ rest) (ProcessFile (Z.of_nat k) (Z.of_nat n)) =
                   read_file rest (ProcessFile (Z.of_nat k) (Z.of_nat n))).
    { intros k rest. clearbody shards. unfold read_file. induction shards as [|x shards IHs]; [reflexivity|]. cbn [map app find fst file_eqb]. exact IHs. }
    assert (Hc : forall rest, checkpoint_process_count (map (fun jc => (ShardFile (fst jc), snd jc)) shards ++ rest) = checkpoint_process_count rest).
    { clear Hr. intros rest. clearbody shards. unfold checkpoint_process_count. induction shards as [|x shards IHs]; [reflexivity|]. cbn [map app fold_right fst]. exact IHs. }
    split; [|rewrite Hc; unfold checkpoint_process_count in *; cbn [fold_right fst]; split; lia].
    intros k Hk. rewrite Hr. unfold read_file. cbn [find fst file_eqb]. rewrite Z.eqb_refl, andb_true_r.
    destruct (Z.eqb_spec (Z.of_nat h) (Z.of_nat k)) as [Ehk|Ehk].
    + apply Nat2Z.inj in Ehk. subst k. reflexivity.
    + destruct Hk as [<-|Hk]; [easy|]. now apply H1.
Qed.
Theorem C70_same_hosts n ss d fuel h : (h < n)%nat -> pipe_save D cycle_length keep truthy st n ss = Ok d ->
  pipe_host_restore D cycle_length keep truthy st fuel d n h = set_state (hit n h) fuel (init (hit n h)) (jsonck (hit n h) (get_state (hit n h) (ss h))).
Proof.
  intros Hh E. unfold pipe_save in E. apply sh_bind in E as (parts & Es & E). injection E as <-.
  destruct (own_files n ss _ parts Es) as (H1 & H2 & _). unfold pipe_host_restore, restore.
  rewrite (H1 h) by (apply in_seq; lia). rewrite H2 by (destruct n; [lia|easy]). rewrite Z.eqb_refl. cbn [negb bind].
  destruct (pair_dec (n, h) (n, h)) as [e|Hne]; [|easy]. rewrite (Eqdep_dec.UIP_dec pair_dec e eq_refl). reflexivity.
Qed.
End SameHosts.
(** The same jobs lose nothing if the number of hosts stays the same. *)
Example C70_same_hosts_example :
  elements_of (fun _ => flat_map_stage (fun x => Ok [x; x + 100])) (fun _ => Ok tt) 2 (fun _ => 3%nat) [(2%nat, fun _ => 30%nat)]
  = Some [[[0; 100; 20]; [10; 110; 11]]; [[120; 1; 101; 21; 121; 2; 102; 22; 122; 3; 103; 23; 123]; [111; 12; 112; 13; 113]]] /\
  elements_of (fun _ => limit_stage 3) (fun _ => Ok tt) 2 (fun _ => 2%nat) [(2%nat, fun _ => 30%nat)]
  = Some [[[0; 20]; [10; 11]]; [[1]; [12]]].
Proof. vm_compute. split; reflexivity. Qed.
