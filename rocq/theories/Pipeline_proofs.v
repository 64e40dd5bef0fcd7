(** Every pipeline satisfies the law. *)
From Verif Require Import Base MapDatasets Spec Iter IterSpec ListFacts IterLaw IterBasic_proofs IterBatch_proofs IterFlat_proofs
  IterSource_proofs IterWindow_proofs IterRebatch_proofs IterMany_proofs FileSources FileSpec Prop_Source Packing PackingSpec Packing_proofs
  ConcatSplit ConcatSplitSpec ConcatSplit_proofs ConcatSplitRows_proofs Scheduled Scheduled_proofs Pipeline.

Lemma Forall2_intro_nth {A B} (R : A -> B -> Prop) l l' : length l = length l' ->
  (forall i a b, nth_error l i = Some a -> nth_error l' i = Some b -> R a b) -> Forall2 R l l'.
Proof.
  revert l'. induction l as [|a l IH]; intros [|b l'] Hlen H; try easy. constructor.
  - now apply (H 0%nat).
  - apply IH; [now injection Hlen|]. intros i. apply (H (S i)).
Qed.

Lemma Forall2_fun {A B} (R : A -> B -> Prop) l m m' : (forall a b b', R a b -> R a b' -> b = b') ->
  Forall2 R l m -> Forall2 R l m' -> m = m'.
Proof.
  intros HR H. revert m'. induction H; intros m' H'; inversion H'; subst; [easy|]. f_equal; eauto.
Qed.

Lemma drain_more {A} (it : Iter A) fuel n s l m : drain it fuel n s = (l, Stop) -> (n <= m)%nat -> drain it fuel m s = (l, Stop).
Proof.
  revert s l m. induction n as [|n IH]; intros s l [|m] H Hm; try easy; cbn in *; try lia; try discriminate.
  destruct (next it fuel s) as [[a| | |] s']; try easy. destruct (drain it fuel n s') as [r o] eqn:E. injection H as <- ->.
  now rewrite (IH s' r m E ltac:(lia)).
Qed.
Lemma elements_unique {A} (it : Iter A) l l' : elements it l -> elements it l' -> l = l'.
Proof.
  intros (N & H) (N' & H'). specialize (H (Nat.max N N') ltac:(lia)). specialize (H' (Nat.max N N') ltac:(lia)).
  apply (drain_more _ _ _ _ _ (Nat.max (S (length l)) (S (length l')))) in H, H'; try lia. congruence.
Qed.

Theorem pipe_lawful gen_keys A (it : Iter A) l fin used json :
  pipe gen_keys it l fin used json -> lawful it l fin used json.
Proof.
  induction 1.
  - now apply prefetch_tuned_law.
  - now apply lawful_retype.
  - eapply lawful_map; eauto.
  - eapply lawful_map_with_index; eauto.
  - eapply lawful_random_map; eauto.
  - eapply lawful_filter; eauto.
  - eapply lawful_batch; eauto.
  - eapply lawful_limit; eauto.
  - apply (lawful_repeat (Some (Z.of_nat n)) p it l used json n); auto.
  - apply (lawful_repeat None p it l used json n); auto.
  - eapply lawful_repeat_open; eauto.
  - eapply lawful_flat_map; eauto.
  - eapply lawful_cache; eauto.
  - destruct (lawful_window gen_keys ws seed p l fin used json H H0 H1 IHpipe) as (W' & HW & HL).
    replace W with W'; [exact HL|]. eapply Forall2_fun; [|exact HW|exact H2].
    cbn. intros a b b' E1 E2. rewrite E1 in E2. injection E2 as E2. rewrite <- (rev_involutive b), <- (rev_involutive b'). congruence.
  - eapply lawful_rebatch; eauto.
  - eapply lawful_zip; [eassumption|]. now apply Forall2_intro_nth.
  - eapply lawful_mixed with (pfin := pfin) (ls := ls); eauto. now apply Forall2_intro_nth.
  - now apply lawful_tfrecord.
  - now apply lawful_parquet.
  - eapply pack_dataset_lawful; eauto; intros; apply H1.
  - destruct (cts_lawful cfg p l true used json H H0 IHpipe H2) as (it' & out' & E & L & _).
    rewrite E in H1. injection H1 as ->. now rewrite (elements_unique _ _ _ H3 (lawful_elements _ _ _ _ L)).
  - now apply thread_prefetch_lawful.
  - now apply process_prefetch_lawful.
  - now apply lawful_prefix with (fin := fin).
  - eapply lawful_flags; eauto.
Qed.
