(** C68: closing an iterator. *)
From Verif Require Import Base MapDatasets Iter IterSpec ThreadPrefetch ProcessPrefetch Scheduled Close CloseSpec Close_proofs Elastic ElasticClose.

Section C68.
Context {A : Type} (gen_keys : Z -> Z -> list Z) (tuple_of : list (option A) -> option A).
Notation den := (cden gen_keys tuple_of).

(** Whatever the user did with the iterator before and does after, every next after close raises ValueError: for pipelines over a
    MapDataset, with mapping, random mapping, filtering, batching, zipping and prefetching threads. *)
Theorem C68_raises p c fuel us : den p = Ok c -> reaction_of p = Raises -> (loops p <= fuel)%nat ->
  forall o, In (true, o) (results c fuel us) -> o = Fail ValueError.
Proof.
  intros E R L o H. destruct (use_it_good c _ _ fuel (cden_good gen_keys tuple_of p c E) us (init (cl_it c)) [] false (RInit c)) as [G _].
  destruct (G o H) as [_ V]. now apply V.
Qed.
(** With limit, repeat, mix and worker processes as well, no element is given after close. *)
Theorem C68_silent p c fuel us : den p = Ok c -> reaction_of p <> Goes_on ->
  forall a, ~ In (true, Yield a) (results c fuel us).
Proof.
  intros E R a H. destruct (use_it_good c _ _ fuel (cden_good gen_keys tuple_of p c E) us (init (cl_it c)) [] false (RInit c)) as [G _].
  destruct (G _ H) as [N _]. now apply (N R a).
Qed.
(** In every pipeline: once close has been called, no thread pool, prefetching thread or worker process is running, whatever is done
    afterwards. *)
Theorem C68_released p c fuel us : den p = Ok c -> In UClose us -> cl_running c (at_end c fuel us) = 0%nat.
Proof.
  intros E H. pose proof (cden_good gen_keys tuple_of p c E) as G.
  destruct (use_it_good c _ _ fuel G us (init (cl_it c)) [] false (RInit c)) as [_ S]. apply (G _ (S (or_intror H))).
Qed.
(** Calling close again has no effect. *)
Theorem C68_idempotent p c fuel us vs : den p = Ok c ->
  results c fuel (us ++ UClose :: UClose :: vs) = results c fuel (us ++ UClose :: vs) /\
  at_end c fuel (us ++ UClose :: UClose :: vs) = at_end c fuel (us ++ UClose :: vs).
Proof.
  intros E. unfold results, at_end. rewrite (close_twice_uses gen_keys tuple_of p c fuel E us vs). split; reflexivity.
Qed.
End C68.

(** The elements 0 .. n-1. *)
Definition first_n (n : Z) : MapDs Z := mkMapDs n (fun i => Ok (Some (i mod n))) (fun l => Ok (map (fun i => Some (i mod n)) l)).
Definition no_keys (_ _ : Z) : list Z := [].
Definition add_up (l : list (option Z)) : option Z := Some (fold_right Z.add 0 (map (fun x => match x with Some a => a | None => 0 end) l)).
Definition src : cpipe Z := CSource None false 2 3 (first_n 10).
Definition turns : schedule := fun i => (Nat.even i, 0%nat).

(** A pipeline with a thread pool, a prefetching thread and all transformations of C68_raises: elements before close, ValueError after. *)
Definition everything : cpipe Z :=
  CThread 2 true turns (CZip true [CMap (fun a => Ok (Some (a + 1))) (CFilter None (fun a => Ok (match a with Some a => Z.even a | None => false end)) src);
                                   CBatch 2 true (fun l => Ok (add_up l)) src]).
Definition of_everything : Closable (option Z) :=
  match cden no_keys add_up everything with Ok c => c | _ => source_cl (map_it (fun a => Ok (Some a)) (prefetch_it None false 0 0 (first_n 1))) end.
Example C68_example :
  reaction_of everything = Raises /\ cden no_keys add_up everything = Ok of_everything /\
  results of_everything 60 [UNext; USave; UNext; UClose; UNext; ULoad 0 true; UNext] =
    [(false, Yield (Some 2)); (false, Yield (Some 8)); (true, Fail ValueError); (true, Fail ValueError)] /\
  cl_running of_everything (at_end of_everything 60 [UNext; UNext]) = 3%nat /\
  cl_running of_everything (at_end of_everything 60 [UNext; UNext; UClose]) = 0%nat.
Proof.
  split; [reflexivity|]. split; [reflexivity|]. split; [|split].
  - vm_compute. reflexivity.
  - vm_compute. reflexivity.
  - vm_compute. reflexivity.
Qed.
Example C68_silent_example :
  let p := CMix [1; 1] [CLimit 5 src; CProcess 2 false turns src] in
  reaction_of p = Silent /\
  exists c, cden no_keys add_up p = Ok c /\
    results c 60 [UNext; UNext; UClose; UNext] = [(false, Yield (Some 0)); (false, Yield (Some 0)); (true, Fail ValueError)] /\
    cl_running c (at_end c 60 [UNext; UNext]) = 2%nat.
Proof. cbv zeta. split; [reflexivity|]. eexists. split; [reflexivity|]. vm_compute. split; reflexivity. Qed.

(** "After calling close, the iterator will raise ValueError on any subsequent calls to __next__" (dataset.py:1538-1539) does not hold
    for every iterator.  flat_map and window_shuffle give the elements they have kept, cache gives all of them ... *)
Theorem C68_kept_refuted : exists (p : cpipe Z) c us a, cden no_keys add_up p = Ok c /\ In (true, Yield a) (results c 60 us).
Proof.
  exists (CFlatMap (fun a => Ok [a; a]) src). eexists. exists [UNext; UClose; UNext], (Some 0). split; [reflexivity|]. vm_compute. auto.
Qed.
Theorem C68_cache_refuted : exists (p : cpipe Z) c us,
  cden no_keys add_up p = Ok c /\ results c 60 (us ++ [UClose; UNext; UNext]) =
    results c 60 us ++ [(true, Yield (Some 0)); (true, Yield (Some 1))].
Proof.
  exists (CCache (CSource None false 2 3 (first_n 2))). eexists. exists [USave; UNext; UNext; UNext; ULoad 0 false].
  split; [reflexivity|]. vm_compute. reflexivity.
Qed.
(** ... an iterator of a file that does not look at whether it is closed goes on reading ... *)
Definition from_file : Iter (option Z) :=
  {| ist := Z; ick := Z; init := 0; next := fun _ s => (Yield (Some s), s + 1); get_state := fun s => s;
     set_state := fun _ _ c => Ok c; jsonck := fun c => c |}.
Theorem C68_file_refuted : exists (p : cpipe Z) c, p = CMap (fun a => Ok (Some (a + 1))) (CUser from_file) /\ cden no_keys add_up p = Ok c /\
  results c 60 [UNext; UClose; UNext; UNext] = [(false, Yield (Some 1)); (true, Yield (Some 2)); (true, Yield (Some 3))].
Proof. do 2 eexists. split; [reflexivity|]. split; [reflexivity|]. vm_compute. reflexivity. Qed.
(** ... and limit, repeat, mix and worker processes that have stopped raise StopIteration. *)
Theorem C68_stopped_refuted : exists (p : cpipe Z) c us, cden no_keys add_up p = Ok c /\ In (true, Stop) (results c 60 us).
Proof.
  exists (CLimit 1 src). eexists. exists [UNext; UClose; UNext]. split; [reflexivity|]. vm_compute. auto.
Qed.

(** ** Elastic iterators *)

(** The iterator of a host over a MapDataset: after close, whatever was done before, no thread pool is running; and if an element had
    been asked for since the last set_state, no element is given any more. *)
Lemma use_app {A} (c : Closable A) fuel vs us : forall s cks closed, exists cks' closed', (closed = true -> closed' = true) /\
  use_it c fuel (us ++ vs) s cks closed =
    (fst (use_it c fuel us s cks closed) ++ fst (use_it c fuel vs (snd (use_it c fuel us s cks closed)) cks' closed'),
     snd (use_it c fuel vs (snd (use_it c fuel us s cks closed)) cks' closed')).
Proof.
  induction us as [|u us IH]; intros s cks closed.
  - exists cks, closed. split; [easy|]. cbn. now destruct (use_it c fuel vs s cks closed).
  - destruct u as [| |k j|]; cbn [app use_it].
    + destruct (next (cl_it c) fuel s) as [o s'] eqn:En. destruct (IH s' cks closed) as (cks' & cl' & Hc & E). exists cks', cl'. split; [easy|].
      rewrite E. destruct (use_it c fuel us s' cks closed) as [l e]. reflexivity.
    + apply IH.
    + destruct (nth_error cks k) as [ck|]; [|apply IH]. destruct (set_state (cl_it c) fuel s (if j then jsonck (cl_it c) ck else ck)); apply IH.
    + destruct (IH (cl_close c s) cks true) as (cks' & cl' & Hc & E). exists cks', cl'. split; [auto|exact E].
Qed.
Section Elastic.
Context {A : Type} (pushdown : bool) (b i k num_threads buffer_size : Z) (ds : MapDs A).
Notation host := (elastic_map_cl pushdown b i k num_threads buffer_size ds).
Theorem C68_elastic_host fuel us n :
  cl_running host (at_end host fuel (us ++ [UClose])) = 0%nat /\
  forall a, ~ In (true, Yield a) (skipn (length (results host fuel (us ++ [UNext]))) (results host fuel (us ++ UNext :: UClose :: repeat UNext n))).
Proof.
  split.
  - unfold at_end. destruct (use_app host fuel [UClose] us (init (cl_it host)) [] false) as (cks & cl & _ & E). rewrite E. cbn [snd use_it].
    destruct (snd (use_it host fuel us (init (cl_it host)) [] false)) as [g [[d [s c]]|]]; [|reflexivity].
    cbn. destruct c; reflexivity.
  - intros a. unfold results. change (us ++ UNext :: UClose :: repeat UNext n) with (us ++ [UNext] ++ UClose :: repeat UNext n). rewrite app_assoc.
    destruct (use_app host fuel (UClose :: repeat UNext n) (us ++ [UNext]) (init (cl_it host)) [] false) as (cks & cl & _ & E). rewrite E. cbn [fst].
    rewrite skipn_app, skipn_all, Nat.sub_diag. cbn [app skipn use_it]. clear E.
    destruct (use_app host fuel [UNext] us (init (cl_it host)) [] false) as (cks1 & cl1 & _ & E). rewrite E. cbn [snd use_it]. clear E.
    set (s := snd (use_it host fuel us (init (cl_it host)) [] false)). clearbody s.
    assert (G : forall g it, (match it with Some (existT _ d s) => snd s = true | None => elastic_inner pushdown b i k ds g = OutOfFuel \/ exists e, elastic_inner pushdown b i k ds g = Raise e end) ->
      ~ In (true, Yield a) (fst (use_it host fuel (repeat UNext n) (g, it) cks true))).
    { clear. intros g it. revert g it. induction n as [|n IH]; intros g it H; [easy|]. cbn [repeat use_it cl_it elastic_map_cl next].
      destruct it as [[d [s c]]|].
      - cbn [snd] in H. subst c. cbn [prefetch_cl cl_it next]. specialize (IH g (Some (existT _ d (s, true))) eq_refl).
        destruct (use_it host fuel (repeat UNext n) _ cks true) as [l e] eqn:Eu in |- *. cbn [fst]. intros [X|X]; [discriminate|]. apply IH. apply (f_equal fst) in Eu. cbn [fst] in Eu. rewrite <- Eu in X. exact X.
      - specialize (IH g None H). destruct H as [H|(e & H)]; rewrite H; cbn [bind];
          destruct (use_it host fuel (repeat UNext n) _ cks true) as [l e'] eqn:Eu in |- *; cbn [fst]; (intros [X|X]; [discriminate|]); apply IH; apply (f_equal fst) in Eu; cbn [fst] in Eu; rewrite <- Eu in X; exact X. }
    destruct s as [g it]. destruct (next (cl_it host) fuel (g, it)) as [o [g1 it1]] eqn:En. cbn [snd]. cbn [cl_close elastic_map_cl].
    apply G. cbn [next elastic_map_cl cl_it] in En. destruct it as [[d s]|].
    + destruct (next (cl_it (prefetch_cl None false num_threads buffer_size d)) fuel s) as [o' s'].
      assert (E : it1 = Some (existT _ d s')) by (destruct o'; congruence). subst it1. destruct s' as [s' []]; reflexivity.
    + destruct (elastic_inner pushdown b i k ds g) as [d|e|] eqn:Ei; cbn [bind] in En.
      * destruct (next (cl_it (prefetch_cl None false num_threads buffer_size d)) fuel (init (cl_it (prefetch_cl None false num_threads buffer_size d)))) as [o' s'].
        assert (E : it1 = Some (existT _ d s')) by (destruct o'; congruence). subst it1. destruct s' as [s' []]; reflexivity.
      * injection En as _ <- <-. right. eauto.
      * injection En as _ <- <-. left. exact Ei.
Qed.
Notation plain := (mkClosable (elastic_map_it pushdown b i k num_threads buffer_size ds) (fun s => s) (fun _ => 0%nat)).
(** As long as it is not closed, the iterator does what the model without close does (C26): the same outcomes of next, after every
    sequence of next, get_state and set_state. *)
Theorem C68_elastic_open fuel us : ~ In UClose us ->
  results host fuel us = results plain fuel us.
Proof.
  intros H. unfold results.
  assert (G : forall g it it' cks, match it, it' with
      | Some (existT _ d s), Some (d', s') => d = d' /\ s = (s', false)
      | None, None => True | _, _ => False end ->
    fst (use_it host fuel us (g, it) cks false) =
    fst (use_it plain fuel us (g, it') cks false)).
  { induction us as [|u us IH]; intros g it it' cks R; [easy|].
    assert (Hus : ~ In UClose us) by (intros X; apply H; now right). specialize (IH Hus).
    destruct u as [| |j js|]; [| | |exfalso; apply H; now left].
    - cbn [use_it cl_it elastic_map_cl elastic_map_it next].
      destruct it as [[d s]|], it' as [[d' s']|]; try easy.
      + destruct R as [<- ->]. cbn [cl_it prefetch_cl next prefetch_it].
        destruct (prefetch_next None false d fuel s') as [o s1].
        destruct o; cbv beta iota;
        match goal with |- context [use_it host fuel us (?g1, ?a) cks false] =>
               match goal with |- context [use_it plain fuel us (g1, ?c) cks false] =>
                 specialize (IH g1 a c cks (conj eq_refl eq_refl)) end end;
        destruct (use_it host fuel us _ cks false), (use_it plain fuel us _ cks false); cbn [fst] in *; congruence.
      + destruct (elastic_inner pushdown b i k ds g) as [d|e|]; cbn [bind].
        * cbn [cl_it prefetch_cl next prefetch_it init].
          destruct (prefetch_next None false d fuel _) as [o s1].
          destruct o; cbv beta iota;
          match goal with |- context [use_it host fuel us (?g1, ?a) cks false] =>
               match goal with |- context [use_it plain fuel us (g1, ?c) cks false] =>
                 specialize (IH g1 a c cks (conj eq_refl eq_refl)) end end;
        destruct (use_it host fuel us _ cks false), (use_it plain fuel us _ cks false); cbn [fst] in *; congruence.
        * specialize (IH g None None cks I).
          destruct (use_it host fuel us _ cks false), (use_it plain fuel us _ cks false); cbn [fst] in *; congruence.
        * specialize (IH g None None cks I).
          destruct (use_it host fuel us _ cks false), (use_it plain fuel us _ cks false); cbn [fst] in *; congruence.
    - cbn [use_it]. apply (IH g it it' (cks ++ [g]) R).
    - cbn [use_it]. match goal with |- fst (match ?x with _ => _ end) = fst (match ?y with _ => _ end) => change y with x; destruct x as [ck|] end; [|now apply IH].
      destruct js; exact (IH ck None None cks I). }
  now apply (G 0 None None []).
Qed.
End Elastic.
Example C68_elastic_open_example : let c := elastic_map_cl false 4 1 2 2 3 (first_n 10) in let us := [UNext; USave; UNext; ULoad 0 true; UNext] in
  ~ In UClose us /\ results c 60 us = [(false, Yield (Some [Some 1; Some 3])); (false, Yield (Some [Some 5; Some 7])); (false, Yield (Some [Some 5; Some 7]))].
Proof. cbv zeta. split; [now intros [H|[H|[H|[H|[H|[]]]]]]|vm_compute; reflexivity]. Qed.
Example C68_elastic_example : let c := elastic_map_cl false 4 1 2 2 3 (first_n 10) in
  results c 60 [UNext; USave; UNext; ULoad 0 true; UNext; UClose; UNext] =
    [(false, Yield (Some [Some 1; Some 3])); (false, Yield (Some [Some 5; Some 7])); (false, Yield (Some [Some 5; Some 7])); (true, Fail ValueError)] /\
  cl_running c (at_end c 60 [UNext]) = 1%nat.
Proof. split; vm_compute; reflexivity. Qed.

(** Through ElasticIterator close has no effect: the thread pool goes on running, and so does next. *)
Theorem C68_elastic_refuted : let c := elastic_cl (elastic_map_cl false 4 1 2 2 3 (first_n 10)) in
  results c 60 [UNext; UClose; UNext] = [(false, Yield (Some [Some 1; Some 3])); (true, Yield (Some [Some 5; Some 7]))] /\
  cl_running c (at_end c 60 [UNext; UClose]) = 1%nat.
Proof. split; vm_compute; reflexivity. Qed.
