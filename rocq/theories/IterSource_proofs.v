(** to_iter_dataset (PrefetchDatasetIterator) and window_shuffle satisfy the law. *)
From Verif Require Import Base MapDatasets Spec Iter IterSpec ListFacts Sharding_proofs IterLaw IterBasic_proofs IterFlat_proofs.

(** ** PrefetchDatasetIterator *)
Section Prefetch.
  Context {A} (ds : MapDs A).

  Definition pf_inv (s : pf_st A) : Prop :=
    0 <= pf_ret s <= mlen ds /\ pf_buf s = pf_ret s + Z.of_nat (length (pf_buffer s)) /\
    pf_buf s <= mlen ds /\ pf_buffer s = map (mget ds) (zrange (pf_ret s) (length (pf_buffer s))).

  Lemma pf_inv_empty c n t k : 0 <= c <= mlen ds -> pf_inv (mkPf c c [] n t k).
  Proof.
    intros H. unfold pf_inv. cbn [pf_ret pf_buf pf_buffer length Z.of_nat]. rewrite Z.add_0_r.
    split; [lia|]. split; [easy|]. split; [lia|easy].
  Qed.

  Lemma fill_buffer_ok n : forall r buffer nb, nb = r + Z.of_nat (length buffer) -> nb <= mlen ds ->
    buffer = map (mget ds) (zrange r (length buffer)) ->
    let (b', nb') := fill_buffer ds n buffer nb in
    nb' = r + Z.of_nat (length b') /\ nb' <= mlen ds /\ b' = map (mget ds) (zrange r (length b')) /\
    (nb < mlen ds -> (0 < n)%nat -> b' <> []) /\ exists t, b' = buffer ++ t.
  Proof.
    induction n as [|n IH]; intros r buffer nb Hnb Hle Hb; cbn [fill_buffer].
    - repeat split; auto; [lia|]. exists []. now rewrite app_nil_r.
    - destruct (Z.ltb_spec nb (mlen ds)) as [H|H].
      + specialize (IH r (buffer ++ [mget ds nb]) (nb + 1)).
        destruct (fill_buffer ds n (buffer ++ [mget ds nb]) (nb + 1)) as [b' nb'].
        rewrite app_length in IH. cbn [length] in IH.
        destruct IH as (H1 & H2 & H3 & _ & t & H4); [lia|lia| |].
        { rewrite zrange_app, map_app, <- Hb, zrange_S, <- Hnb. reflexivity. }
        repeat split; auto.
        * intros _ _ ->. destruct buffer; discriminate.
        * exists ([mget ds nb] ++ t). rewrite H4. now rewrite <- app_assoc.
      + repeat split; auto; [lia|]. exists []. now rewrite app_nil_r.
  Qed.

  Lemma pf_fill_ok s : pf_inv s -> pf_inv (pf_fill ds s) /\ pf_ret (pf_fill ds s) = pf_ret s /\
    pf_size (pf_fill ds s) = pf_size s /\ pf_threads (pf_fill ds s) = pf_threads s /\
    (pf_ret s < mlen ds -> 0 < pf_size s -> pf_buffer (pf_fill ds s) <> []).
  Proof.
    intros (H1 & H2 & H3 & H4). unfold pf_fill.
    pose proof (fill_buffer_ok (Z.to_nat (pf_size s - Z.of_nat (length (pf_buffer s)))) _ _ _ H2 H3 H4) as H.
    destruct fill_buffer as [b nb]. cbn. destruct H as (G1 & G2 & G3 & G4 & t & G5).
    split; [repeat split; cbn; auto; lia|]. repeat split; auto. intros Hr Hs.
    destruct (pf_buffer s) as [|x xs] eqn:E.
    - apply G4; cbn in *; lia.
    - rewrite G5. discriminate.
  Qed.

  Lemma pf_tune_ok s t : pf_inv s -> pf_inv (pf_apply ds s t) /\ pf_ret (pf_apply ds s t) = pf_ret s.
  Proof.
    intros H. destruct t; cbn; [easy|easy|]. unfold pf_start_prefetch.
    destruct (_ && _); [|easy]. pose proof (pf_fill_ok s H). tauto.
  Qed.

  Lemma pf_tunes_ok ts : forall s, pf_inv s ->
    pf_inv (fold_left (pf_apply ds) ts s) /\ pf_ret (fold_left (pf_apply ds) ts s) = pf_ret s.
  Proof.
    induction ts as [|t ts IH]; intros s H; cbn; [easy|].
    destruct (pf_tune_ok s t H) as [H1 H2]. destruct (IH _ H1) as [H3 H4]. split; [easy|congruence].
  Qed.

  (* taking an element: its value is ds[ret], and afterwards the buffer holds what follows *)
  Lemma pf_take_ok s e : pf_inv s -> pf_ret s < mlen ds -> mget ds (pf_ret s) = Ok e ->
    exists s1, pf_take ds s = (Ok e, s1) /\ pf_ret s1 = pf_ret s /\
      pf_inv (mkPf (pf_ret s1 + 1) (pf_buf s1) (pf_buffer s1) (pf_size s1) (pf_threads s1) (pf_checker s1)).
  Proof.
    intros H Hlt He. unfold pf_take.
    (* dropping the head of a valid buffer *)
    assert (Hhead : forall s r rest, pf_inv s -> pf_buffer s = r :: rest -> pf_ret s < mlen ds ->
      r = mget ds (pf_ret s) /\
      pf_inv (mkPf (pf_ret s + 1) (pf_buf s) rest (pf_size s) (pf_threads s) (pf_checker s))).
    { clear. intros s r rest (H1 & H2 & H3 & H4) E Hlt. rewrite E in H2, H4. cbn [length] in H2, H4.
      rewrite zrange_S in H4. cbn [map] in H4. injection H4 as Hr Hrest. split; [easy|].
      repeat split; cbn; auto; lia. }
    destruct (Z.gtb_spec (pf_size s) 0) as [Hs|Hs]; cbn [andb].
    - destruct (Z.gtb_spec (pf_threads s) 0) as [Ht|Ht].
      + assert (exists s0, match pf_buffer s with [] => pf_fill ds s | _ => s end = s0 /\
          pf_inv s0 /\ pf_ret s0 = pf_ret s /\ pf_buffer s0 <> []) as (s0 & -> & Hi0 & Hr0 & Hb0).
        { destruct (pf_fill_ok s H) as (F1 & F2 & F3 & F4 & F5).
          destruct (pf_buffer s) eqn:E; [exists (pf_fill ds s)|exists s]; (split; [reflexivity|]); (split; [easy|]); (split; [easy|]).
          - apply F5; lia.
          - rewrite E. discriminate. }
        destruct (pf_buffer s0) as [|r rest] eqn:E; [easy|].
        destruct (Hhead s0 r rest Hi0 E ltac:(lia)) as [-> Hi1].
        rewrite Hr0, He. eexists. split; [reflexivity|].
        (* filling with ret still at the old index only extends the buffer *)
        destruct Hi1 as (G1 & G2 & G3 & G4). cbn in G1, G2, G3, G4.
        unfold pf_fill. cbn.
        pose proof (fill_buffer_ok (Z.to_nat (pf_size s0 - Z.of_nat (length rest))) (pf_ret s0 + 1) rest (pf_buf s0) G2 G3 G4) as F.
        destruct fill_buffer as [b nb]. cbn. destruct F as (F1 & F2 & F3 & _).
        split; [easy|]. rewrite Hr0 in *. repeat split; cbn; auto; lia.
      + destruct (pf_buffer s) as [|r rest] eqn:E.
        * rewrite He. eexists. split; [reflexivity|]. split; [easy|].
          destruct H as (H1 & H2 & H3 & H4). rewrite E in H2. cbn in H2. repeat split; cbn; auto; lia.
        * destruct (Hhead s r rest H E Hlt) as [-> Hi1]. rewrite He. eexists. split; [reflexivity|]. now cbn.
    - destruct (pf_buffer s) as [|r rest] eqn:E.
      + rewrite He. eexists. split; [reflexivity|]. split; [easy|].
        destruct H as (H1 & H2 & H3 & H4). rewrite E in H2. cbn in H2. repeat split; cbn; auto; lia.
      + destruct (Hhead s r rest H E Hlt) as [-> Hi1]. rewrite He. eexists. split; [reflexivity|]. now cbn.
  Qed.

  Context (allow_nones : bool) (E : list (option A)).
  Definition kept (e : option A) : bool := allow_nones || match e with Some _ => true | None => false end.

  (* E holds the elements of the first |E| indices *)
  Context (HE : forall i e, nth_error E i = Some e -> mget ds (Z.of_nat i) = Ok e)
          (Hlen : Z.of_nat (length E) <= mlen ds).
  Let fin := (Z.of_nat (length E) =? mlen ds).

  Definition pf_rep (s : pf_st A) (j : nat) : Prop :=
    pf_inv s /\ pf_ret s <= Z.of_nat (length E) /\ j = length (filter kept (firstn (Z.to_nat (pf_ret s)) E)).
  Definition pf_crep (c : Z) (j : nat) : Prop :=
    0 <= c <= Z.of_nat (length E) /\ j = length (filter kept (firstn (Z.to_nat c) E)).

  Lemma prefetch_next_yield a d : forall s q fuel, d = (length E - q)%nat -> pf_inv s ->
    pf_ret s = Z.of_nat q -> (q <= length E)%nat -> (d < fuel)%nat ->
    nth_error (filter kept (skipn q E)) 0 = Some a ->
    exists s', prefetch_next None allow_nones ds fuel s = (Yield a, s') /\
      pf_rep s' (S (length (filter kept (firstn q E)))).
  Proof.
    induction d as [|d IH]; intros s q fuel Hd Hi Hr Hq Hf Ha.
    - rewrite skipn_all2 in Ha by lia. discriminate.
    - destruct (nth_error E q) as [e|] eqn:Ee; [|apply nth_error_None in Ee; lia].
      assert (Hlt : (q < length E)%nat) by (now apply nth_lt in Ee).
      destruct fuel as [|fuel]; [lia|]. cbn [prefetch_next].
      destruct (Z.eqb_spec (pf_ret s) (mlen ds)) as [C|_]; [lia|].
      destruct (pf_take_ok s e Hi ltac:(lia)) as (s1 & -> & Hr1 & Hi1); [rewrite Hr; now apply HE|].
      fold (kept e). pose proof (check_None (pf_checker s1) (kept e)) as Hc.
      destruct (check None (pf_checker s1) (kept e)) as [c err]. cbn in Hc. subst err.
      rewrite (skipn_nth_cons _ _ _ Ee) in Ha. cbn [filter] in Ha.
      set (s2 := mkPf _ _ _ _ _ c). assert (Hi2 : pf_inv s2) by (revert Hi1; now unfold pf_inv).
      assert (Hr2 : pf_ret s2 = Z.of_nat (S q)) by (cbn; lia).
      destruct (kept e) eqn:K.
      + cbn in Ha. injection Ha as <-. eexists. split; [reflexivity|].
        split; [easy|]. split; [lia|]. rewrite Hr2, Nat2Z.id, (filter_firstn_S _ _ _ _ Ee), K, app_length. cbn. lia.
      + destruct (IH s2 (S q) fuel ltac:(lia) Hi2 Hr2 ltac:(lia) ltac:(lia) Ha) as (s' & Es & Hrep).
        exists s'. split; [easy|]. rewrite (filter_firstn_S _ _ _ _ Ee), K, app_nil_r in Hrep. exact Hrep.
  Qed.

  Lemma prefetch_next_stop d : fin = true -> forall s q fuel, d = (length E - q)%nat -> pf_inv s ->
    pf_ret s = Z.of_nat q -> (q <= length E)%nat -> (d < fuel)%nat -> filter kept (skipn q E) = [] ->
    exists s', prefetch_next None allow_nones ds fuel s = (Stop, s') /\ pf_rep s' (length (filter kept E)).
  Proof.
    intros F. apply Z.eqb_eq in F. induction d as [|d IH]; intros s q fuel Hd Hi Hr Hq Hf Ha.
    - destruct fuel as [|fuel]; [lia|]. cbn [prefetch_next].
      destruct (Z.eqb_spec (pf_ret s) (mlen ds)) as [C|C]; [|lia].
      eexists. split; [reflexivity|]. split; [easy|]. split; [lia|].
      rewrite Hr, Nat2Z.id, firstn_all2 by lia. easy.
    - destruct (nth_error E q) as [e|] eqn:Ee; [|apply nth_error_None in Ee; lia].
      assert (Hlt : (q < length E)%nat) by (now apply nth_lt in Ee).
      destruct fuel as [|fuel]; [lia|]. cbn [prefetch_next].
      destruct (Z.eqb_spec (pf_ret s) (mlen ds)) as [C|_]; [lia|].
      destruct (pf_take_ok s e Hi ltac:(lia)) as (s1 & -> & Hr1 & Hi1); [rewrite Hr; now apply HE|].
      fold (kept e). pose proof (check_None (pf_checker s1) (kept e)) as Hc.
      destruct (check None (pf_checker s1) (kept e)) as [c err]. cbn in Hc. subst err.
      rewrite (skipn_nth_cons _ _ _ Ee) in Ha. cbn [filter] in Ha.
      set (s2 := mkPf _ _ _ _ _ c). assert (Hi2 : pf_inv s2) by (revert Hi1; now unfold pf_inv).
      assert (Hr2 : pf_ret s2 = Z.of_nat (S q)) by (cbn; lia).
      destruct (kept e) eqn:K; [discriminate|].
      apply (IH s2 (S q)); auto; lia.
  Qed.

  Lemma pf_rep_le s j : pf_rep s j -> (j <= length (filter kept E))%nat.
  Proof.
    intros (_ & _ & ->). rewrite (filter_split kept E (Z.to_nat (pf_ret s))), app_length. lia.
  Qed.

  Lemma pf_step_yield fuel s j a : (S (length E) <= fuel)%nat -> pf_rep s j ->
    nth_error (filter kept E) j = Some a ->
    exists s', prefetch_next None allow_nones ds fuel s = (Yield a, s') /\ pf_rep s' (S j).
  Proof.
    intros Hf (Hi & Hle & Hj) Ha. pose proof Hi as (H0 & _).
    destruct (prefetch_next_yield a _ s (Z.to_nat (pf_ret s)) fuel eq_refl Hi) as (s' & Es & Hr);
      try lia.
    - rewrite (filter_split kept E (Z.to_nat (pf_ret s))), nth_error_app2 in Ha by lia.
      now rewrite <- Hj, Nat.sub_diag in Ha.
    - exists s'. rewrite Hj. auto.
  Qed.

  Lemma pf_step_stop fuel s : (S (length E) <= fuel)%nat -> fin = true ->
    pf_rep s (length (filter kept E)) ->
    exists s', prefetch_next None allow_nones ds fuel s = (Stop, s') /\ pf_rep s' (length (filter kept E)).
  Proof.
    intros Hf F (Hi & Hle & Hj). pose proof Hi as (H0 & _).
    apply (prefetch_next_stop _ F s (Z.to_nat (pf_ret s)) fuel eq_refl Hi); try lia.
    rewrite (filter_split kept E (Z.to_nat (pf_ret s))), app_length in Hj.
    apply length_zero_iff_nil. lia.
  Qed.

  Lemma prefetch_tuned_Law sched num_threads buffer_size :
    Law (prefetch_tuned sched None allow_nones num_threads buffer_size ds) (filter kept E) fin true true
        (S (length E)) (fun s j => pf_rep (fst s) j) pf_crep.
  Proof.
    assert (Hset : forall s k c j, pf_inv s -> pf_crep c j ->
      exists s', set_state (prefetch_tuned sched None allow_nones num_threads buffer_size ds) 0 (s, k) c = Ok s'
        /\ pf_rep (fst s') j).
    { intros s k c j Hi (Hc & Hj). cbn. unfold prefetch_set.
      destruct (Z.ltb_spec c 0); [lia|]. destruct (Z.gtb_spec c (mlen ds)); [lia|]. cbn.
      eexists. split; [reflexivity|]. split; [apply pf_inv_empty; lia|]. split; [cbn; lia|easy]. }
    assert (H0 : pf_inv (mkPf 0 0 [] buffer_size num_threads checker0)) by (apply pf_inv_empty; lia).
    split.
    - split; [easy|]. split; [cbn; lia|easy].
    - intros [s k] j. apply pf_rep_le.
    - intros fuel [s k] j a Hf (Hi & Hle & Hj) Ha. cbn [next prefetch_tuned prefetch_it].
      destruct (pf_tunes_ok (sched k) s Hi) as [Hi' Hr'].
      destruct (pf_step_yield fuel (fold_left (pf_apply ds) (sched k) s) j a Hf) as (s' & -> & Hrep); auto.
      { split; [easy|]. now rewrite Hr'. }
      exists (s', S k). auto.
    - intros fuel [s k] Hf F (Hi & Hle & Hj). cbn [next prefetch_tuned prefetch_it].
      destruct (pf_tunes_ok (sched k) s Hi) as [Hi' Hr'].
      destruct (pf_step_stop fuel (fold_left (pf_apply ds) (sched k) s) Hf F) as (s' & -> & Hrep); auto.
      { split; [easy|]. now rewrite Hr'. }
      exists (s', S k). auto.
    - intros [s k] j (Hi & Hle & Hj). cbn [fst get_state prefetch_tuned] in *. destruct Hi as (Hi & _). split; [lia|easy].
    - easy.
    - intros fuel [s k] j Hf (Hi & _) _. apply (Hset s k 0 0%nat Hi). split; [lia|easy].
    - intros fuel c j Hf Hc _. now apply Hset.
    - intros fuel [s k] q c j Hf _ (Hi & _) Hc _. now apply Hset.
  Qed.
  Lemma prefetch_tuned_law sched num_threads buffer_size :
    lawful (prefetch_tuned sched None allow_nones num_threads buffer_size ds) (filter kept E) fin true true.
  Proof. do 3 eexists. apply prefetch_tuned_Law. Qed.

  Lemma prefetch_law num_threads buffer_size :
    lawful (prefetch_it None allow_nones num_threads buffer_size ds) (filter kept E) fin true true.
  Proof.
    exists (S (length E)), pf_rep, pf_crep.
    assert (Hset : forall s c j, pf_inv s -> pf_crep c j ->
      exists s', prefetch_set ds s c = Ok s' /\ pf_rep s' j).
    { intros s c j Hi (Hc & Hj). unfold prefetch_set.
      destruct (Z.ltb_spec c 0); [lia|]. destruct (Z.gtb_spec c (mlen ds)); [lia|]. cbn.
      eexists. split; [reflexivity|]. split; [apply pf_inv_empty; lia|]. split; [cbn; lia|easy]. }
    assert (H0 : pf_inv (mkPf 0 0 [] buffer_size num_threads checker0)) by (apply pf_inv_empty; lia).
    split.
    - split; [easy|]. split; [cbn; lia|easy].
    - intros s j. apply pf_rep_le.
    - intros fuel s j a. apply pf_step_yield.
    - intros fuel s. apply pf_step_stop.
    - intros s j (Hi & Hle & Hj). cbn. destruct Hi as (Hi & _). split; [lia|easy].
    - easy.
    - intros fuel s j Hf (Hi & _) _. apply (Hset s 0 0%nat Hi). split; [lia|easy].
    - intros fuel c j Hf Hc _. now apply Hset.
    - intros fuel s q c j Hf _ (Hi & _) Hc _. now apply Hset.
  Qed.
End Prefetch.
