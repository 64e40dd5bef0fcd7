(** Further facts behind the iterator property theorems. *)
From Verif Require Import Base IndexShuffle IndexShuffle_proofs MapDatasets Spec MixSelect_proofs Iter IterSpec ListFacts IterLaw
  IterBasic_proofs IterBatch_proofs IterWindow_proofs IterSource_proofs IterMany_proofs.

(** ** JSON round trips make no difference *)
Definition plain (o : op) : op := match o with OLoad k _ => OLoad k false | o => o end.

Lemma cursor_plain {A} (l : list A) ops : forall p ps, cursor l (map plain ops) p ps = cursor l ops p ps.
Proof.
  induction ops as [|[| |k j|] ops IH]; intros p ps; cbn; try easy.
  - destruct (nth_error l p); now rewrite IH.
  - now rewrite IH.
  - destruct (nth_error ps k); now rewrite IH.
  - now rewrite IH.
Qed.

Lemma fresh_plain ops : forall b, fresh_loads b (map plain ops) = fresh_loads b ops.
Proof. induction ops as [|[| |k j|] ops IH]; intros b; cbn; rewrite ?IH; easy. Qed.

Lemma no_json_plain ops : no_json (map plain ops) = true.
Proof. induction ops as [|[| |k j|] ops IH]; cbn; easy. Qed.

Lemma checkpointable_json {A} (it : Iter A) l fin used : checkpointable it l fin used true ->
  exists N, forall fuel ops, (N <= fuel)%nat ->
    (fin = false -> (length ops <= length l)%nat) -> (used = false -> fresh_loads true ops = true) ->
    run it fuel ops (init it) [] = run it fuel (map plain ops) (init it) [].
Proof.
  intros (N & H). exists N. intros fuel ops Hf Hl Hu. rewrite !H; try easy.
  - now rewrite cursor_plain.
  - now rewrite map_length.
  - now rewrite fresh_plain.
Qed.

(** ** Window shuffle: the order within a window *)
Definition window_order (gk : Z -> Z -> list Z) (n : nat) (s : Z) : list nat :=
  rev (map (fun pos => match index_shuffle gk pos (Z.of_nat n - 1) s 4 with Ok i => Z.to_nat i | _ => O end)
           (zrange 0 n)).

Lemma reshuffle_order {A} gk (c o : list A) s : Z.of_nat (length c) <= 2 ^ 63 ->
  reshuffle_window gk c s = Ok (rev o) -> map Some o = map (nth_error c) (window_order gk (length c) s).
Proof.
  intros Hc H. unfold window_order. rewrite map_rev, map_map.
  rewrite <- (rev_involutive (map Some o)). f_equal. rewrite <- map_rev.
  unfold reshuffle_window in H. apply sequence_Ok_iff in H.
  apply nth_error_ext. intros i. apply (f_equal (fun l => nth_error l i)) in H.
  rewrite !nth_error_map in H |- *. rewrite nth_error_zrange in *.
  destruct (Nat.ltb_spec i (length c)) as [Hi|Hi]; cbn [option_map] in *; [|destruct (nth_error (rev o) i); easy].
  destruct (nth_error (rev o) i) as [a|]; [|easy]. cbn [option_map] in *.
  change (0 + Z.of_nat i) with (Z.of_nat i) in *. injection H as H. apply bind_Ok_iff in H as (y & Hy & Ha). rewrite Hy.
  assert (Hr : 0 <= y < Z.of_nat (length c)).
  { destruct (Z_lt_dec s 0); [unfold index_shuffle in Hy; destruct (Z.ltb_spec s 0); [easy|lia]|].
    destruct (Z_lt_dec s (2 ^ 32)).
    - destruct (index_shuffle_valid gk (Z.of_nat i) (Z.of_nat (length c) - 1) s 4) as (y' & E & Hy'); try lia.
      rewrite E in Hy. injection Hy as <-. lia.
    - unfold index_shuffle in Hy. destruct (Z.geb_spec s (2 ^ 32)); [|lia]. now rewrite orb_true_r in Hy. }
  destruct (pyindex_nth c y Hr) as (a' & E & ->). congruence.
Qed.

Lemma window_order_permutation gk n s : 0 <= s < 2 ^ 32 -> Z.of_nat n <= 2 ^ 63 -> ~ bad_size (Z.of_nat n - 1) ->
  Permutation (window_order gk n s) (seq 0 n).
Proof.
  intros Hs Hn Hb. destruct (Nat.eq_dec n 0) as [->|H0]; [constructor|].
  unfold window_order. rewrite <- Permutation_rev.
  pose proof (index_shuffle_permutation gk (Z.of_nat n - 1) s 4 Hs ltac:(lia) eq_refl ltac:(lia) Hb) as HP.
  unfold shuffled in HP. replace (Z.of_nat n - 1 + 1) with (Z.of_nat n) in HP by lia. rewrite Nat2Z.id in HP.
  apply Permutation_map with (f := fun r => match r with Ok i => Z.to_nat i | _ => O end) in HP.
  rewrite !map_map in HP. rewrite HP.
  replace (map (fun x : Z => Z.to_nat x) (zrange 0 n)) with (seq 0 n); [easy|]. symmetry.
  apply nth_error_ext. intros i. rewrite nth_error_map, nth_error_zrange.
  destruct (Nat.ltb_spec i n).
  - cbn. rewrite (nth_error_nth' _ 0%nat), seq_nth by (rewrite ?seq_length; lia). f_equal. lia.
  - symmetry. apply nth_error_None. rewrite seq_length. lia.
Qed.

(** ** Mixtures exist and are unique *)
Lemma mixture_unique {A} props (ls : list (list A)) out out' :
  mixture props ls out -> mixture_ends props ls out -> mixture props ls out' -> mixture_ends props ls out' -> out = out'.
Proof.
  intros H1 (d1 & k1 & E1 & N1) H2 (d2 & k2 & E2 & N2).
  assert (P : forall i a a', nth_error out i = Some a -> nth_error out' i = Some a' -> a = a').
  { intros i a a' Ha Ha'. destruct (H1 i a Ha) as (d & k & E & G). destruct (H2 i a' Ha') as (d' & k' & E' & G').
    rewrite E in E'. injection E' as Hd Hk. apply Nat2Z.inj in Hd, Hk. subst. congruence. }
  assert (Hlen : length out = length out').
  { destruct (Nat.lt_trichotomy (length out) (length out')) as [H|[H|H]]; [exfalso|easy|exfalso].
    - destruct (nth_error out' (length out)) as [a|] eqn:E; [|apply nth_error_None in E; lia].
      destruct (H2 _ _ E) as (d & k & E' & G). rewrite E' in E1. injection E1 as Hd Hk.
      apply Nat2Z.inj in Hd, Hk. subst. congruence.
    - destruct (nth_error out (length out')) as [a|] eqn:E; [|apply nth_error_None in E; lia].
      destruct (H1 _ _ E) as (d & k & E' & G). rewrite E' in E2. injection E2 as Hd Hk.
      apply Nat2Z.inj in Hd, Hk. subst. congruence. }
  apply nth_error_ext. intros i. destruct (nth_error out i) as [a|] eqn:E, (nth_error out' i) as [a'|] eqn:E'; try easy.
  - f_equal. eauto.
  - apply nth_error_None in E'. pose proof (nth_lt _ _ _ E). lia.
  - apply nth_error_None in E. pose proof (nth_lt _ _ _ E'). lia.
Qed.

Lemma list_sum_update d k qs : nth_error qs d = Some k -> list_sum (update_nth d (S k) qs) = S (list_sum qs).
Proof.
  revert d. induction qs as [|q qs IH]; intros [|d] H; try easy.
  - cbn in H. injection H as ->. easy.
  - change (list_sum (update_nth (S d) (S k) (q :: qs))) with (q + list_sum (update_nth d (S k) qs))%nat.
    rewrite (IH d H). change (list_sum (q :: qs)) with (q + list_sum qs)%nat. lia.
Qed.

Lemma Forall2_update {A} (ls : list (list A)) qs d k : Forall2 (fun l q => q <= length l)%nat ls qs ->
  (k < length (nth d ls []))%nat -> Forall2 (fun l q => q <= length l)%nat ls (update_nth d (S k) qs).
Proof.
  intros H. revert d. induction H as [|l q ls qs H1 H2 IH]; intros [|d] Hk; cbn in *; try constructor; auto; lia.
Qed.

Lemma mixture_exists {A} props (ls : list (list A)) : (forall p, In p props -> 0 < p) -> props <> [] ->
  length ls = length props -> exists out, mixture props ls out /\ mixture_ends props ls out.
Proof.
  intros Hp Hne Hlen.
  (* extend a partial mixture; what remains decreases *)
  assert (G : forall n out qs, mixture props ls out -> map Z.of_nat qs = counts (Z.of_nat (length out)) (zsum props) props ->
     Forall2 (fun l q => q <= length l)%nat ls qs -> (list_sum (map (@length A) ls) < n + list_sum qs)%nat ->
     exists out', mixture props ls out' /\ mixture_ends props ls out').
  { induction n as [|n IH]; intros out qs Hm Hqs Hle Hn.
    - exfalso. assert (list_sum qs <= list_sum (map (@length A) ls))%nat; [|lia].
      clear -Hle. induction Hle as [|l q ls qs H1 H2 IH]; [easy|].
      change (q + list_sum qs <= length l + list_sum (map (@length A) ls))%nat. lia.
    - destruct (counts_select props (length out) qs Hp Hne Hqs) as (d & key & Hd & Hsel & Hupd).
      destruct (nth_error (nth d ls []) key) as [a|] eqn:Ea.
      + apply (IH (out ++ [a]) (update_nth d (S key) qs)).
        * intros i b Hb. destruct (Nat.lt_ge_cases i (length out)) as [Hi|Hi].
          -- rewrite nth_error_app1 in Hb by easy. now apply Hm.
          -- rewrite nth_error_app2 in Hb by easy. pose proof (nth_lt _ _ _ Hb) as Hz. cbn in Hz.
             replace i with (length out) in * by lia. rewrite Nat.sub_diag in Hb. cbn in Hb. injection Hb as <-.
             exists d, key. auto.
        * rewrite Hupd, app_length. cbn. do 2 f_equal. lia.
        * apply Forall2_update; [easy|]. apply (nth_lt _ _ _ Ea).
        * rewrite (list_sum_update _ _ _ Hd). lia.
      + exists out. split; [easy|]. exists d, key. auto. }
  apply (G (S (list_sum (map (@length A) ls))) [] (List.repeat 0%nat (length props))).
  - intros i a H. now destruct i.
  - cbn [length]. change (Z.of_nat 0) with 0. now rewrite (counts_zero _ _ Hp eq_refl), repeat_of_nat.
  - rewrite <- Hlen. apply Forall2_repeat. apply Forall_forall. intros. lia.
  - lia.
Qed.

(** ** filter on the map and on the iterator side *)
Lemma filter_somes {A} (g : A -> bool) (E : list (option A)) :
  filter (fun e => match e with Some _ => true | None => false end)
     (map (fun e => match e with Some x => if g x then Some x else None | None => None end) E)
  = map Some (filter g (somes E)).
Proof.
  induction E as [|[x|] E IH]; cbn; auto. unfold somes in IH. destruct (g x); cbn; rewrite IH; easy.
Qed.

Lemma filter_kept {A} (E : list (option A)) :
  filter (fun e => match e with Some _ => true | None => false end) E = map Some (somes E).
Proof. induction E as [|[x|] E IH]; cbn; auto. now rewrite IH. Qed.

Lemma filter_map_Some {A} (g : A -> bool) (h : option A -> bool) l : (forall x, h (Some x) = g x) ->
  filter h (map Some l) = map Some (filter g l).
Proof. intros H. induction l as [|x l IH]; cbn; [easy|]. rewrite H. destruct (g x); cbn; now rewrite IH. Qed.
