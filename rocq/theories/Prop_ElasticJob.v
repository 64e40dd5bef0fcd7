(** Property C37 for whole jobs: several hosts read their shards, the job is saved, goes on
    with another number of hosts, and so on. *)
From Verif Require Import Base ListFacts Iter IterSpec IterLaw Interleave InterleaveSpec Interleave_proofs Elastic MultiprocessSpec ElasticJob ElasticJob_proofs Prop_Iter Prop_Interleave.

(** ** Specification *)

(** A job that starts with [n] hosts and goes on as [later] says: every number of hosts is
    between 1 and the number [m] of shards, and each differs from the one before. *)
Fixpoint resizes (m n : nat) (later : list (nat * (nat -> nat))) : Prop :=
  (0 < n <= m)%nat /\ match later with [] => True | (n', _) :: later' => n' <> n /\ resizes m n' later' end.

(** ** C37: jobs *)

(** What the hosts read in all generations, and what the hosts of the last generation still
    read, is every shard, each element once and in order.  [outs] are the elements read, with
    the number of the shard they come from: by generation and host.  [rests] are those that
    the hosts of the last generation still read.  Guard: [job_ordered], each time the job is
    restored every exhausted shard of a host comes before one of the shards that the host opens
    at once. *)
Theorem C37_job {A} (ps : list (Iter A)) ls cycle_length keep truthy used :
  Forall2 (fun p l => lawful p l true used true) ps ls -> (0 < cycle_length)%nat -> (forall c, truthy c = true) ->
  exists N, forall fuel n ks later, (N <= fuel)%nat -> resizes (length ps) n later ->
    let D := embed ps in
    job_ordered D cycle_length keep truthy fuel n ks later (job_start D cycle_length n) = true ->
    exists (outs : list (list (list (nat * A)))) n' ss (rests : list (list (nat * A))),
      job D cycle_length keep truthy fuel n ks later (job_start D cycle_length n) = Ok (map (map (map snd)) outs, (n', ss)) /\
      length ss = n' /\ length rests = n' /\
      (forall h s rest, nth_error ss h = Some s -> nth_error rests h = Some rest ->
        drain (interleave_it (host_shards D n' h) cycle_length keep truthy) fuel (S (length rest)) s = (map snd rest, Stop)) /\
      forall j, of_dataset j (concat (concat outs) ++ concat rests) = nth j ls [].
Proof.
  intros HL Hcyc Ht. destruct (embed_family used true ps ls truthy HL Ht) as (N & rep & crep & F & _).
  exists (job_enough (embed ps) N). intros fuel n ks later Hf Hres D Hord.
  assert (Hc : counts_ok D n later).
  { unfold D. clear Hord. revert n ks Hres. induction later as [|[n' ks'] later IH]; intros n ks Hres; cbn [resizes counts_ok] in *; rewrite embed_length.
    - exact Hres.
    - destruct Hres as (H1 & H2 & H3). split; [exact H1|]. split; [exact H2|]. now apply (IH n' ks'). }
  assert (Hn : (0 < n <= length D)%nat) by (destruct later as [|[? ?] ?]; apply Hc).
  pose proof (start_has D cycle_length truthy ls used true N rep crep F Hcyc n ltac:(lia) ltac:(lia)) as HJ.
  destruct (job_ok D cycle_length keep truthy ls used true N rep crep F Hcyc eq_refl Ht fuel Hf later n ks _ _ Hc HJ Hord) as (outs & n' & ss & rem & E & Hn' & HJ' & Hr).
  destruct (job_outs D cycle_length ls rep crep Hcyc n' ss rem HJ') as (ros & Hrl & HO). destruct HJ' as (Hsl & Hrem & _).
  exists outs, n', ss, (map (fun ho => relabel n' (fst ho) (snd ho)) (combine (seq 0 n') ros)).
  split; [exact E|]. split; [exact Hsl|]. split; [rewrite map_length, combine_length, seq_length; lia|]. split.
  - intros h s rest Es Er. rewrite nth_error_map, nth_combine_seq in Er by exact Hrl. destruct (nth_error ros h) as [ro|] eqn:Ero; [|easy]. cbn in Er. injection Er as <-.
    destruct (HO h s ro Es Ero) as (Hg & _). unfold relabel. rewrite map_length, map_map. cbn [snd].
    apply (host_drain D cycle_length keep truthy ls used true N rep crep F Hcyc n' h fuel Hn' Hf ro s Hg).
  - intros j. rewrite of_dataset_app, (relabelled cycle_length Hcyc) by (auto; lia). rewrite (rem_outs D cycle_length ls rep crep Hcyc n' ss rem ros Hn' Hsl Hrl HO). apply Hr.
Qed.

(** What the guard asks for holds in particular if something is left of every shard each time
    the job is saved: the hosts read at most [limit n ks later] elements each before that. *)
Fixpoint limit (n : nat) (ks : nat -> nat) (later : list (nat * (nat -> nat))) : nat :=
  match later with [] => 0%nat | (n', ks') :: later' => (list_max (map ks (seq 0 n)) + limit n' ks' later')%nat end.
Theorem C37_job_unexhausted {A} (ps : list (Iter A)) ls cycle_length keep truthy used :
  Forall2 (fun p l => lawful p l true used true) ps ls -> (0 < cycle_length)%nat -> (forall c, truthy c = true) ->
  exists N, forall fuel n ks later, (N <= fuel)%nat -> resizes (length ps) n later ->
    (forall j, (j < length ps)%nat -> (limit n ks later < length (nth j ls []))%nat) ->
    let D := embed ps in
    exists (outs : list (list (list (nat * A)))) n' ss (rests : list (list (nat * A))),
      job D cycle_length keep truthy fuel n ks later (job_start D cycle_length n) = Ok (map (map (map snd)) outs, (n', ss)) /\
      length ss = n' /\ length rests = n' /\
      (forall h s rest, nth_error ss h = Some s -> nth_error rests h = Some rest ->
        drain (interleave_it (host_shards D n' h) cycle_length keep truthy) fuel (S (length rest)) s = (map snd rest, Stop)) /\
      forall j, of_dataset j (concat (concat outs) ++ concat rests) = nth j ls [].
Proof.
  intros HL Hcyc Ht. destruct (C37_job ps ls cycle_length keep truthy used HL Hcyc Ht) as (N1 & H1).
  destruct (embed_family used true ps ls truthy HL Ht) as (N & rep & crep & F & _).
  exists (Nat.max N1 (job_enough (embed ps) N)). intros fuel n ks later Hf Hres Hlim D. apply H1; [lia|exact Hres|].
  assert (Hc : counts_ok D n later).
  { unfold D. clear Hlim. revert n ks Hres. induction later as [|[n' ks'] later IH]; intros n ks Hres; cbn [resizes counts_ok] in *; rewrite embed_length.
    - exact Hres.
    - destruct Hres as (E1 & E2 & E3). split; [exact E1|]. split; [exact E2|]. now apply (IH n' ks'). }
  assert (Hn : (0 < n <= length D)%nat) by (destruct later as [|[? ?] ?]; apply Hc).
  pose proof (start_has D cycle_length truthy ls used true N rep crep F Hcyc n ltac:(lia) ltac:(lia)) as HJ.
  apply (job_ordered_ok D cycle_length keep truthy ls used true N rep crep F Hcyc eq_refl Ht fuel ltac:(unfold D; lia) later n ks _ _ Hc HJ).
  intros j Hj. unfold D in Hj. rewrite embed_length in Hj. specialize (Hlim j Hj).
  assert (El : forall l n0 k0, budget n0 k0 l = limit n0 k0 l) by (induction l as [|[? ?] l IH]; intros; cbn; [easy|]; now rewrite IH). now rewrite El.
Qed.

(** The elements of a job, by generation and host. *)
Definition job_elements {X Y} (r : res (list (list (list X)) * Y)) : option (list (list (list X))) :=
  match r with Ok (o, _) => Some o | _ => None end.

(** Both theorems at work: five shards, on 2 hosts, then 3, then 1. *)
Definition five_elements : list (list Z) := [[0; 1; 2; 3]; [10; 11; 12; 13]; [20; 21; 22; 23]; [30; 31; 32; 33]; [40; 41; 42; 43]].
Definition five : list (Iter Z) := [shifted 0 4; shifted 10 4; shifted 20 4; shifted 30 4; shifted 40 4].
Lemma five_lawful : Forall2 (fun p l => lawful p l true true true) five five_elements.
Proof.
  repeat constructor.
  - exact (shifted_lawful 0 4 ltac:(lia)).
  - exact (shifted_lawful 10 4 ltac:(lia)).
  - exact (shifted_lawful 20 4 ltac:(lia)).
  - exact (shifted_lawful 30 4 ltac:(lia)).
  - exact (shifted_lawful 40 4 ltac:(lia)).
Qed.
Example C37_job_example : exists N, forall fuel, (N <= fuel)%nat -> exists outs n' ss rests,
  job (embed five) 2 true (fun _ => true) fuel 2 (fun _ => 2%nat) [(3%nat, fun _ => 1%nat); (1%nat, fun _ => 5%nat)] (job_start (embed five) 2 2)
  = Ok (map (map (map snd)) outs, (n', ss)) /\ length rests = n' /\
  forall j, of_dataset j (concat (concat outs) ++ concat rests) = nth j five_elements [].
Proof.
  destruct (C37_job_unexhausted five five_elements 2 true (fun _ => true) true five_lawful ltac:(lia) ltac:(easy)) as (N & H).
  exists N. intros fuel Hf. destruct (H fuel 2%nat (fun _ => 2%nat) [(3%nat, fun _ => 1%nat); (1%nat, fun _ => 5%nat)] Hf) as (outs & n' & ss & rests & E & _ & Hl & _ & Hr).
  - cbn. lia.
  - intros j Hj. cbn in Hj. destruct j as [|[|[|[|[|j]]]]]; cbn; lia.
  - exists outs, n', ss, rests. auto.
Qed.
(** The guard also holds with exhausted shards: shard 1 is read to its end by the first two
    hosts, and shard 2 by the next three. *)
Example C37_job_exhausted_example : let D := map list_h [[0; 1; 2; 3]; [10; 11]; [20; 21; 22]; [30; 31; 32; 33]; [40; 41; 42]] in
  let later := [(3%nat, fun _ : nat => 2%nat); (1%nat, fun _ => 10%nat)] in
  job_ordered D 2 true (fun _ => true) 60 2 (fun _ => 3%nat) later (job_start D 2 2) = true /\
  job_elements (job D 2 true (fun _ => true) 60 2 (fun _ => 3%nat) later (job_start D 2 2))
  = Some [[[0; 20; 1]; [10; 30; 11]]; [[2; 31]; [40; 41]; [21; 22]]; [[3; 32; 42; 33]]].
Proof. vm_compute. split; reflexivity. Qed.

(** Without the guard a shard is read twice: one host reads shard 1 to its end, and after
    the job goes on with two hosts the second one reads it again. *)
Theorem C37_job_exhausted_refuted : let D := map list_h [[0; 1; 2; 3]; [10]; [20; 21]] in
  let later := [(2%nat, fun _ : nat => 10%nat)] in
  job_ordered D 2 true (fun _ => true) 60 1 (fun _ => 5%nat) later (job_start D 2 1) = false /\
  job_elements (job D 2 true (fun _ => true) 60 1 (fun _ => 5%nat) later (job_start D 2 1)) = Some [[[0; 10; 1; 2; 20]]; [[3; 21]; [10]]].
Proof. vm_compute. split; reflexivity. Qed.
(** A job that was resized, saved again and restored with the same number of hosts reads
    elements twice: the states of the shards that were not opened yet pass through JSON in the
    host's own state. *)
Theorem C37_job_same_hosts_refuted : let D := map list_h [[0; 1; 2]; [10; 11; 12]; [20; 21; 22]] in
  let later := [(1%nat, fun _ : nat => 1%nat); (1%nat, fun _ => 10%nat)] in
  job_ordered D 1 true (fun _ => true) 60 2 (fun _ => 2%nat) later (job_start D 1 2) = true /\
  job_elements (job D 1 true (fun _ => true) 60 2 (fun _ => 2%nat) later (job_start D 1 2))
  = Some [[[0; 1]; [10; 11]]; [[2]]; [[10; 11; 12; 20; 21; 22]]].
Proof. vm_compute. split; reflexivity. Qed.
