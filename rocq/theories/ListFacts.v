(** List lemmas shared by the proofs. *)
From Verif Require Import Base MapDatasets Spec.

Lemma sequence_map_Ok {A} (l : list A) : sequence (map Ok l) = Ok l.
Proof. induction l as [|a l IH]; [easy|]. cbn. now rewrite IH. Qed.

Lemma sequence_Ok_iff {A} (l : list (res A)) vs : sequence l = Ok vs <-> l = map Ok vs.
Proof.
  split.
  - revert vs. induction l as [|r l IH]; intros vs; cbn.
    + intros [= <-]. easy.
    + destruct r as [a| |]; cbn; try easy.
      destruct (sequence l) as [rest| |]; cbn; try easy. intros [= <-]. cbn. f_equal. now apply IH.
  - intros ->. apply sequence_map_Ok.
Qed.

Lemma bind_Ok_iff {A B} (r : res A) (f : A -> res B) b :
  bind r f = Ok b <-> exists a, r = Ok a /\ f a = Ok b.
Proof.
  split.
  - destruct r; cbn; try easy. eauto.
  - intros (a & -> & H). exact H.
Qed.

Lemma map_Ok_inj {A} (l l' : list A) : map Ok l = map Ok l' -> l = l'.
Proof.
  revert l'. induction l as [|a l IH]; intros [|a' l']; cbn; try easy.
  intros [= -> H]. f_equal. auto.
Qed.

Lemma length_map_Ok {A B} (l : list B) (f : B -> res A) vs : map f l = map Ok vs -> length vs = length l.
Proof. intros H. apply (f_equal (@length _)) in H. now rewrite !map_length in H. Qed.

Lemma skipn_skipn {A} m n (l : list A) : skipn m (skipn n l) = skipn (m + n) l.
Proof.
  revert l. induction n as [|n IH]; intros l.
  - now rewrite Nat.add_0_r.
  - rewrite Nat.add_succ_r. destruct l as [|a l]; [now rewrite !skipn_nil|]. cbn [skipn]. apply IH.
Qed.

Lemma firstn_plus {A} a b (l : list A) : firstn (a + b) l = firstn a l ++ firstn b (skipn a l).
Proof.
  revert l. induction a as [|a IH]; intros [|x l]; cbn; try easy.
  - now rewrite firstn_nil.
  - f_equal. apply IH.
Qed.

(** ** chunks *)
Lemma chunks_aux_fuel {A} b (Hb : (0 < b)%nat) f f' (l : list A) :
  (length l <= f)%nat -> (length l <= f')%nat -> chunks_aux f b l = chunks_aux f' b l.
Proof.
  revert f' l. induction f as [|f IH]; intros [|f'] l Hf Hf'; cbn; try easy;
    destruct l as [|a l]; cbn in *; try easy; try lia.
  f_equal. apply IH; destruct b; cbn; try lia; rewrite skipn_length; lia.
Qed.

Lemma chunks_nil {A} b : chunks b (@nil A) = [].
Proof. easy. Qed.

Lemma chunks_step {A} b (l : list A) : (0 < b)%nat -> l <> [] ->
  chunks b l = firstn b l :: chunks b (skipn b l).
Proof.
  intros Hb Hl. unfold chunks. destruct l as [|a l]; [easy|]. cbn [length chunks_aux].
  f_equal. apply chunks_aux_fuel; try easy. rewrite skipn_length. cbn [length]. lia.
Qed.

Lemma chunks_ind {A} b (P : list A -> list (list A) -> Prop) : (0 < b)%nat ->
  P [] [] ->
  (forall l, l <> [] -> P (skipn b l) (chunks b (skipn b l)) -> P l (firstn b l :: chunks b (skipn b l))) ->
  forall l, P l (chunks b l).
Proof.
  intros Hb H0 Hs l. remember (length l) as n eqn:Hn. revert l Hn.
  induction n as [n IH] using lt_wf_ind. intros l ->. destruct l as [|a l]; [easy|].
  rewrite chunks_step by easy. apply Hs; [easy|].
  apply (IH (length (skipn b (a :: l)))); [|easy]. rewrite skipn_length. cbn [length]. lia.
Qed.

Lemma chunks_concat {A} b (l : list A) : (0 < b)%nat -> concat (chunks b l) = l.
Proof.
  intros Hb. pattern l, (chunks b l). apply chunks_ind; [easy|easy|].
  intros l' _ IH. cbn [concat]. rewrite IH. apply firstn_skipn.
Qed.

Lemma chunks_length {A} b (l : list A) : (0 < b)%nat ->
  Z.of_nat (length (chunks b l)) = (Z.of_nat (length l) + Z.of_nat b - 1) / Z.of_nat b.
Proof.
  intros Hb. pattern l, (chunks b l). apply chunks_ind; [easy| |].
  - cbn. rewrite Z.div_small; lia.
  - intros l' Hl IH. cbn [length]. rewrite Nat2Z.inj_succ, IH, skipn_length.
    assert (0 < length l')%nat by (destruct l'; [easy|cbn; lia]).
    destruct (Nat.le_gt_cases b (length l')).
    + replace (Z.of_nat (length l') + Z.of_nat b - 1)
        with (Z.of_nat (length l' - b) + Z.of_nat b - 1 + 1 * Z.of_nat b) by lia.
      rewrite Z.div_add by lia. lia.
    + replace (length l' - b)%nat with 0%nat by lia.
      rewrite Z.div_small by lia.
      apply (Z.div_unique _ _ _ (Z.of_nat (length l') - 1)); lia.
Qed.

Lemma chunks_nth {A} b (l : list A) j : (0 < b)%nat ->
  nth_error (chunks b l) j =
    if (j * b <? length l)%nat then Some (firstn b (skipn (j * b) l)) else None.
Proof.
  intros Hb. revert j. pattern l, (chunks b l). apply chunks_ind; [easy| |].
  - intros j. destruct (Nat.ltb_spec (j * b) (length (@nil A))); [cbn in *; lia|]. now destruct j.
  - intros l' Hl IH j. assert (0 < length l')%nat by (destruct l'; [easy|cbn; lia]).
    destruct j as [|j]; cbn [nth_error].
    + rewrite Nat.mul_0_l. cbn [skipn]. destruct (Nat.ltb_spec 0 (length l')); [easy|lia].
    + rewrite IH, skipn_length. rewrite skipn_skipn.
      replace (j * b + b)%nat with (S j * b)%nat by lia.
      destruct (Nat.ltb_spec (j * b) (length l' - b)), (Nat.ltb_spec (S j * b) (length l')); try easy; nia.
Qed.

(** A chunk of [firstn (n/b*b)] ... the complete chunks. *)
Lemma full_chunks_firstn {A} b (l : list A) : (0 < b)%nat ->
  full_chunks b l = firstn (length l / b) (chunks b l).
Proof.
  intros Hb. unfold full_chunks. pattern l, (chunks b l). apply chunks_ind; [easy| |].
  - cbn. now rewrite firstn_nil.
  - intros l' Hl IH. cbn [filter]. rewrite firstn_length.
    destruct (Nat.le_gt_cases b (length l')).
    + rewrite Nat.min_l by lia. rewrite Nat.eqb_refl.
      replace (length l') with ((length l' - b) + 1 * b)%nat by lia.
      rewrite Nat.div_add by lia. rewrite Nat.add_1_r. cbn [firstn].
      rewrite skipn_length in IH. now rewrite IH.
    + rewrite Nat.min_r by lia. replace (Nat.eqb (length l') b) with false by (symmetry; apply Nat.eqb_neq; lia).
      rewrite (Nat.div_small (length l') b) by lia. cbn [firstn].
      rewrite IH, skipn_length. replace (length l' - b)%nat with 0%nat by lia. now rewrite Nat.div_0_l by lia.
Qed.

Lemma chunks_sizes {A} b (l : list A) : (0 < b)%nat ->
  forall j c, nth_error (chunks b l) j = Some c ->
    (S j < length (chunks b l) -> length c = b)%nat /\ (0 < length c <= b)%nat.
Proof.
  intros Hb j c Hc. pose proof (chunks_length b l Hb) as HL.
  rewrite chunks_nth in Hc by easy. destruct (Nat.ltb_spec (j * b) (length l)); [|easy].
  injection Hc as <-. rewrite firstn_length, skipn_length. split; [|lia].
  intros Hj. assert (Z.of_nat (S j) < (Z.of_nat (length l) + Z.of_nat b - 1) / Z.of_nat b) as Hlt by lia.
  apply Nat.min_l. clear HL Hj.
  assert (Z.of_nat (S (S j)) * Z.of_nat b <= Z.of_nat (length l) + Z.of_nat b - 1); [|nia].
  apply Z.le_trans with ((Z.of_nat (length l) + Z.of_nat b - 1) / Z.of_nat b * Z.of_nat b); [nia|].
  rewrite Z.mul_comm. apply Z.mul_div_le. lia.
Qed.

Lemma full_chunks_concat {A} b (l : list A) : (0 < b)%nat ->
  concat (full_chunks b l) = firstn (length l / b * b) l.
Proof.
  intros Hb. rewrite full_chunks_firstn by easy.
  pattern l, (chunks b l). apply chunks_ind; [easy| |].
  - cbn. now rewrite !firstn_nil.
  - intros l' Hl IH. rewrite skipn_length in IH.
    destruct (Nat.le_gt_cases b (length l')).
    + assert (length l' / b = S ((length l' - b) / b))%nat as E.
      { replace (length l') with ((length l' - b) + 1 * b)%nat at 1 by lia.
        rewrite Nat.div_add by lia. lia. }
      rewrite E. cbn [firstn concat]. rewrite IH. symmetry. rewrite Nat.mul_succ_l, Nat.add_comm.
      apply firstn_plus.
    + rewrite (Nat.div_small (length l') b) by lia. easy.
Qed.

Lemma skipn_nth_cons {A} (l : list A) n a : nth_error l n = Some a -> skipn n l = a :: skipn (S n) l.
Proof.
  revert n. induction l as [|x l IH]; intros [|n]; cbn; try easy.
  - now intros [= ->].
  - apply IH.
Qed.

Lemma firstn_S_nth {A} (l : list A) n a : nth_error l n = Some a -> firstn (S n) l = firstn n l ++ [a].
Proof.
  revert n. induction l as [|x l IH]; intros [|n]; cbn; try easy.
  - now intros [= ->].
  - intros H. f_equal. now apply IH.
Qed.

Lemma nth_error_ext {A} (l l' : list A) : (forall i, nth_error l i = nth_error l' i) -> l = l'.
Proof.
  revert l'. induction l as [|a l IH]; intros [|a' l'] H; try easy.
  - specialize (H 0%nat). easy.
  - specialize (H 0%nat). easy.
  - pose proof (H 0%nat) as [= ->]. f_equal. apply IH. intros i. apply (H (S i)).
Qed.

Lemma somes_app {A} (l l' : list (option A)) : somes (l ++ l') = somes l ++ somes l'.
Proof. unfold somes. apply flat_map_app. Qed.

Lemma somes_map_Some {A} (l : list A) : somes (map Some l) = l.
Proof. induction l as [|a l IH]; [easy|]. cbn. f_equal. exact IH. Qed.

Lemma somes_repeat_None {A} n : somes (List.repeat (@None A) n) = [].
Proof. induction n; easy. Qed.

Lemma update_nth_length {A} n (a : A) l : length (update_nth n a l) = length l.
Proof. revert n. induction l as [|x l IH]; intros [|n]; cbn; auto. Qed.

Lemma nth_update_nth {A} n (a : A) l i :
  nth_error (update_nth n a l) i =
    if (Nat.eqb i n && (n <? length l)%nat)%bool then Some a else nth_error l i.
Proof.
  revert n i. induction l as [|x l IH]; intros [|n] [|i]; cbn; try easy.
  - now rewrite andb_false_r.
  - rewrite IH. cbn. reflexivity.
Qed.

Lemma Forall2_length {A B} (R : A -> B -> Prop) l l' : Forall2 R l l' -> length l = length l'.
Proof. induction 1; cbn; congruence. Qed.
