(** map, map_with_index, random_map, filter, batch, limit and repeat preserve the law. *)
From Verif Require Import Base MapDatasets Spec Iter IterSpec ListFacts IterLaw.

Lemma Forall2_nth {A B} (R : A -> B -> Prop) l l' i b :
  Forall2 R l l' -> nth_error l' i = Some b -> exists a, nth_error l i = Some a /\ R a b.
Proof.
  intros H. revert i. induction H; intros [|i]; cbn; try easy.
  - intros [= <-]. eauto.
  - apply IHForall2.
Qed.

Lemma live_length {A B} (l : list A) (l' : list B) fin p :
  length l = length l' -> live l fin p -> live l' fin p.
Proof. unfold live. intros ->. easy. Qed.

Lemma nth_lt {A} (l : list A) p a : nth_error l p = Some a -> (p < length l)%nat.
Proof. intros H. apply nth_error_Some. now rewrite H. Qed.

(** ** map *)
Lemma map_Law {A B} (f : A -> res (option B)) p l l' fin used json N rep crep :
  Forall2 (fun e b => map_element f e = Ok b) l l' ->
  Law p l fin used json N rep crep -> Law (map_it f p) l' fin used json N rep crep.
Proof.
  intros H L. pose proof (Forall2_length _ _ _ H) as Hl. split; cbn.
  - apply (law_init L).
  - rewrite <- Hl. apply (law_le L).
  - intros fuel s q b Hf Hr Hb. destruct (Forall2_nth _ _ _ _ _ H Hb) as (a & Ha & E).
    destruct (law_next L fuel s q a Hf Hr Ha) as (s' & -> & Hr'). cbn. rewrite E. eauto.
  - rewrite <- Hl. intros fuel s Hf Hfin Hr.
    destruct (law_stop L fuel s Hf Hfin Hr) as (s' & -> & Hr'). cbn. eauto.
  - apply (law_get L).
  - apply (law_json L).
  - intros fuel s q Hf Hr Hv. apply (law_start L _ _ _ Hf Hr). now apply (live_length l').
  - intros fuel c q Hf Hc Hv. apply (law_fresh L _ _ _ Hf Hc). now apply (live_length l').
  - intros fuel s q c q' Hf Hu Hr Hc Hv. apply (law_used L _ _ _ _ _ Hf Hu Hr Hc). now apply (live_length l').
Qed.
Lemma lawful_map {A B} (f : A -> res (option B)) p l l' fin used json :
  Forall2 (fun e b => map_element f e = Ok b) l l' ->
  lawful p l fin used json -> lawful (map_it f p) l' fin used json.
Proof. intros H (N & rep & crep & L). exists N, rep, crep. exact (map_Law f p l l' fin used json N rep crep H L). Qed.

(** ** transformations that keep a counter of the elements read *)
Definition counting_it {A B} (g : Z -> A -> res B) (p : Iter A) : Iter B :=
  {| ist := ist p * Z; ick := ick p * Z; init := (init p, 0);
     next := fun fuel '(s, counter) =>
       bindn (next p fuel s) (fun s' => (s', counter)) (fun e s' =>
         match g counter e with
         | Ok b => (Yield b, (s', counter + 1))
         | r => (of_res r, (s', counter))
         end);
     get_state := fun '(s, counter) => (get_state p s, counter);
     set_state := fun fuel '(s, _) '(c, counter) =>
       let! s' := set_state p fuel s c in Ok (s', counter);
     jsonck := fun '(c, counter) => (jsonck p c, counter) |}.

Definition counting_rep {S} (rep : S -> nat -> Prop) (s : S * Z) (q : nat) : Prop := rep (fst s) q /\ snd s = Z.of_nat q.
Lemma counting_Law {A B} (g : Z -> A -> res B) p l l' fin used json N rep crep :
  Forall2 (fun ie b => g (fst ie) (snd ie) = Ok b) (combine (zrange 0 (length l)) l) l' ->
  Law p l fin used json N rep crep ->
  Law (counting_it g p) l' fin used json N (counting_rep rep) (counting_rep crep).
Proof.
  intros H L. pose proof (Forall2_length _ _ _ H) as Hl.
  rewrite combine_length, zrange_length, Nat.min_id in Hl.
  unfold counting_rep. split; cbn.
  - split; [apply (law_init L)|reflexivity].
  - rewrite <- Hl. intros s q [Hr _]. apply (law_le L _ _ Hr).
  - intros fuel [s n] q b Hf [Hr Hn] Hb. cbn in Hr, Hn. subst n.
    destruct (Forall2_nth _ _ _ _ _ H Hb) as ([i a] & Ha & E). cbn in E.
    assert (Hq : (q < length l)%nat) by (rewrite Hl; eapply nth_lt; eassumption).
    destruct (nth_error l q) as [a'|] eqn:Ea; [|apply nth_error_None in Ea; lia].
    assert (nth_error (combine (zrange 0 (length l)) l) q = Some (Z.of_nat q, a')) as E'.
    { clear - Ea Hq. revert Ea. 
      assert (G : forall (la : list Z) (lb : list A) i x y, nth_error la i = Some x -> nth_error lb i = Some y ->
        nth_error (combine la lb) i = Some (x, y)).
      { induction la; intros [|? ?] [|j]; cbn; try easy; [congruence|]. eauto. }
      intros Ea. apply G; [|easy]. rewrite nth_error_zrange.
      destruct (Nat.ltb_spec q (length l)); [reflexivity|lia]. }
    rewrite E' in Ha. injection Ha as <- <-.
    destruct (law_next L fuel s q a' Hf Hr Ea) as (s' & -> & Hr'). cbn. rewrite E.
    eexists. split; [reflexivity|]. cbn. split; [easy|lia].
  - rewrite <- Hl. intros fuel [s n] Hf Hfin [Hr Hn]. cbn in Hr.
    destruct (law_stop L fuel s Hf Hfin Hr) as (s' & -> & Hr'). cbn. eexists. split; [reflexivity|]. easy.
  - intros [s n] q [Hr Hn]. split; [apply (law_get L); easy|easy].
  - intros [c n] q Hj [Hr Hn]. split; [apply (law_json L); easy|easy].
  - intros fuel [s n] q Hf [Hr Hn] Hv. cbn in Hr.
    destruct (law_start L _ _ _ Hf Hr ltac:(eapply live_length; [|exact Hv]; easy)) as (s' & -> & Hr').
    cbn. eexists. split; [reflexivity|]. easy.
  - intros fuel [c n] q Hf [Hc Hn] Hv.
    destruct (law_fresh L _ _ _ Hf Hc ltac:(eapply live_length; [|exact Hv]; easy)) as (s' & E & Hr').
    cbn in E. rewrite E. cbn. eexists. split; [reflexivity|]. easy.
  - intros fuel [s m] q [c n] q' Hf Hu [Hr _] [Hc Hn] Hv.
    destruct (law_used L _ _ _ _ _ Hf Hu Hr Hc ltac:(eapply live_length; [|exact Hv]; easy)) as (s' & E & Hr').
    cbn in E. rewrite E. cbn. eexists. split; [reflexivity|]. easy.
Qed.
Lemma lawful_counting {A B} (g : Z -> A -> res B) p l l' fin used json :
  Forall2 (fun ie b => g (fst ie) (snd ie) = Ok b) (combine (zrange 0 (length l)) l) l' ->
  lawful p l fin used json -> lawful (counting_it g p) l' fin used json.
Proof. intros H (N & rep & crep & L). do 3 eexists. exact (counting_Law g p l l' fin used json N rep crep H L). Qed.

Lemma lawful_map_with_index {A B} (f : Z -> A -> res (option B)) p l l' fin used json :
  Forall2 (fun ie b => map_element (f (fst ie)) (snd ie) = Ok b) (combine (zrange 0 (length l)) l) l' ->
  lawful p l fin used json -> lawful (map_with_index_it f p) l' fin used json.
Proof. exact (lawful_counting (fun i e => map_element (f i) e) p l l' fin used json). Qed.

Lemma lawful_random_map {A B G} (f : A -> G -> res (option B)) rng pi pc p l l' fin used json :
  Forall2 (fun ie b => map_element (fun x => f x (rng (pi + fst ie * pc))) (snd ie) = Ok b)
          (combine (zrange 0 (length l)) l) l' ->
  lawful p l fin used json -> lawful (random_map_it f rng pi pc p) l' fin used json.
Proof.
  exact (lawful_counting (fun i e => map_element (fun x => f x (rng (pi + i * pc))) e) p l l' fin used json).
Qed.

(** ** filter *)
Lemma check_None c b : snd (check None c b) = None.
Proof. unfold check. cbn. now destruct b; cbn; destruct Z.geb. Qed.

Lemma filter_firstn_S {A} (P : A -> bool) l q v : nth_error l q = Some v ->
  filter P (firstn (S q) l) = filter P (firstn q l) ++ (if P v then [v] else []).
Proof.
  intros H. rewrite (firstn_S_nth _ _ _ H), filter_app. cbn. now destruct (P v).
Qed.

Lemma filter_split {A} (P : A -> bool) l q :
  filter P l = filter P (firstn q l) ++ filter P (skipn q l).
Proof. now rewrite <- filter_app, firstn_skipn. Qed.

Section Filter.
  Context {A} (f : A -> res bool) (P : A -> bool) (p : Iter A) (l : list A) (fin used json : bool).
  Context (N : nat) (rep : ist p -> nat -> Prop) (crep : ick p -> nat -> Prop).
  Context (L : Law p l fin used json N rep crep) (HP : Forall (fun v => f v = Ok (P v)) l).

  Lemma filter_next_yield a d : forall q s c fuel, d = (length l - q)%nat -> rep s q ->
    (N + d < fuel)%nat -> nth_error (filter P (skipn q l)) 0 = Some a ->
    exists s' q' c', filter_next None f p fuel (s, c) = (Yield a, (s', c')) /\ rep s' q' /\
      filter P (firstn q' l) = filter P (firstn q l) ++ [a].
  Proof.
    induction d as [|d IH]; intros q s c fuel Hd Hr Hf Ha.
    - rewrite skipn_all2 in Ha by lia. discriminate.
    - destruct fuel as [|fuel]; [lia|]. cbn [filter_next fst snd].
      destruct (nth_error l q) as [v|] eqn:Ev; [|apply nth_error_None in Ev; lia].
      destruct (law_next L fuel s q v ltac:(lia) Hr Ev) as (s' & -> & Hr'). cbn [bindn].
      rewrite Forall_forall in HP. rewrite (HP v) by (eapply nth_error_In; eassumption).
      pose proof (check_None c (P v)) as Hc. destruct (check None c (P v)) as [c' e]. cbn in Hc. subst e.
      rewrite (skipn_nth_cons _ _ _ Ev) in Ha. cbn [filter] in Ha.
      pose proof (filter_firstn_S P l q v Ev) as Hfs.
      destruct (P v).
      + cbn in Ha. injection Ha as <-. exists s', (S q), c'. auto.
      + destruct (IH (S q) s' c' fuel ltac:(lia) Hr' ltac:(lia) Ha) as (s2 & q2 & c2 & E & Hr2 & Hfi).
        exists s2, q2, c2. rewrite Hfi, Hfs, app_nil_r. auto.
  Qed.

  Lemma filter_next_stop d : forall q s c fuel, d = (length l - q)%nat -> rep s q ->
    (N + d < fuel)%nat -> fin = true -> filter P (skipn q l) = [] ->
    exists s' c', filter_next None f p fuel (s, c) = (Stop, (s', c')) /\ rep s' (length l).
  Proof.
    induction d as [|d IH]; intros q s c fuel Hd Hr Hf Hfin Hn;
      (destruct fuel as [|fuel]; [lia|]); cbn [filter_next fst snd]; pose proof (law_le L _ _ Hr).
    - replace q with (length l) in * by lia.
      destruct (law_stop L fuel s ltac:(lia) Hfin Hr) as (s' & -> & Hr'). cbn. eauto.
    - destruct (nth_error l q) as [v|] eqn:Ev; [|apply nth_error_None in Ev; lia].
      destruct (law_next L fuel s q v ltac:(lia) Hr Ev) as (s' & -> & Hr'). cbn [bindn].
      rewrite Forall_forall in HP. rewrite (HP v) by (eapply nth_error_In; eassumption).
      pose proof (check_None c (P v)) as Hc. destruct (check None c (P v)) as [c' e]. cbn in Hc. subst e.
      rewrite (skipn_nth_cons _ _ _ Ev) in Hn. cbn [filter] in Hn.
      destruct (P v); [discriminate|]. apply (IH (S q)); auto; lia.
  Qed.

  Lemma filter_live q p' : (q <= length l)%nat -> p' = length (filter P (firstn q l)) ->
    live (filter P l) fin p' -> live l fin q.
  Proof.
    intros Hq -> [H|[H ->]]; unfold live.
    - rewrite (filter_split P l q), app_length in H.
      destruct (Nat.eq_dec q (length l)) as [->|]; [|lia].
      rewrite skipn_all in H. cbn in H. lia.
    - lia.
  Qed.

  Lemma filter_law : lawful (filter_it None f p) (filter P l) fin used json.
  Proof.
    exists (N + length l + 1)%nat,
      (fun s p' => exists q, rep (fst s) q /\ p' = length (filter P (firstn q l))),
      (fun c p' => exists q, crep c q /\ (q <= length l)%nat /\ p' = length (filter P (firstn q l))).
    assert (Hset : forall fuel (s : ist p) ck q c p',
      (exists s', set_state p fuel s c = Ok s' /\ rep s' q) -> p' = length (filter P (firstn q l)) ->
      exists s', set_state (filter_it None f p) fuel (s, ck) c = Ok s' /\
        exists q, rep (fst s') q /\ p' = length (filter P (firstn q l))).
    { intros fuel s ck q c p' (s' & E & Hr) ->. cbn. rewrite E. cbn. eexists. split; [reflexivity|]. eauto. }
    split.
    - exists 0%nat. split; [apply (law_init L)|reflexivity].
    - intros s p' (q & Hr & ->). rewrite (filter_split P l q), app_length. lia.
    - intros fuel [s c] p' a Hf (q & Hr & ->) Ha. cbn in Hr.
      rewrite (filter_split P l q), nth_error_app2, Nat.sub_diag in Ha by lia.
      destruct (filter_next_yield a _ q s c fuel eq_refl Hr ltac:(lia) Ha) as (s' & q' & c' & E & Hr' & Hfi).
      exists (s', c'). split; [exact E|]. exists q'. split; [exact Hr'|]. rewrite Hfi, app_length. cbn. lia.
    - intros fuel [s c] Hf Hfin (q & Hr & Hl). cbn in Hr.
      assert (filter P (skipn q l) = []) as Hn.
      { apply length_zero_iff_nil. rewrite (filter_split P l q), app_length in Hl. lia. }
      destruct (filter_next_stop _ q s c fuel eq_refl Hr ltac:(lia) Hfin Hn) as (s' & c' & E & Hr').
      exists (s', c'). split; [exact E|]. exists (length l). split; [exact Hr'|]. now rewrite firstn_all.
    - intros [s c] p' (q & Hr & ->). exists q. split; [apply (law_get L); easy|].
      split; [apply (law_le L _ _ Hr)|easy].
    - intros c p' Hj (q & Hc & ?). exists q. split; [apply (law_json L); easy|easy].
    - intros fuel [s c] p' Hf (q & Hr & _) Hv.
      apply Hset with (q := 0%nat); [|easy]. apply (law_start L) with (p := q); [lia|easy|].
      eapply filter_live; [|reflexivity|exact Hv]. lia.
    - intros fuel c p' Hf (q & Hc & Hq & ->) Hv.
      apply Hset with (q := q); [|easy]. apply (law_fresh L); [lia|easy|]. now eapply filter_live.
    - intros fuel [s ck] p1 c p' Hf Hu (q1 & Hr & _) (q & Hc & Hq & ->) Hv.
      apply Hset with (q := q); [|easy]. apply (law_used L) with (q := q1); [lia|easy|easy|easy|]. now eapply filter_live.
  Qed.
End Filter.

Lemma lawful_filter {A} (f : A -> res bool) (P : A -> bool) p l fin used json :
  Forall (fun v => f v = Ok (P v)) l -> lawful p l fin used json ->
  lawful (filter_it None f p) (filter P l) fin used json.
Proof. intros HP (N & rep & crep & L). eapply filter_law; eassumption. Qed.

(** ** limit *)
Definition limit_rep {S} (n : nat) (rep : S -> nat -> Prop) (s : S * Z) (q : nat) : Prop :=
  rep (fst s) q /\ snd s = Z.of_nat q /\ (q <= n)%nat.
Lemma limit_Law {A} count (p : Iter A) l fin used json N rep crep : 0 < count ->
  Law p l fin used json N rep crep ->
  Law (limit_iter count p) (firstn (Z.to_nat count) l) (fin || Nat.ltb (Z.to_nat count) (length l)) used json N
      (limit_rep (Z.to_nat count) rep) (limit_rep (Z.to_nat count) crep).
Proof.
  intros Hc L. unfold limit_rep.
  set (n := Z.to_nat count). assert (Hcount : count = Z.of_nat n) by lia. clearbody n. subst count.
  assert (Hlen : length (firstn n l) = Nat.min n (length l)) by apply firstn_length.
  assert (Hlive : forall q, live (firstn n l) (fin || Nat.ltb n (length l)) q ->
            live l fin q /\ (q <= n)%nat).
  { intros q [H|[-> H]]; unfold live; [lia|]. rewrite Hlen.
    destruct (Nat.ltb_spec n (length l)), fin; cbn in H; try discriminate; lia. }
  split; cbn [limit_iter init next get_state set_state jsonck ist ick fst snd].
  - split; [apply (law_init L)|lia].
  - intros s q (Hr & _ & Hq). pose proof (law_le L _ _ Hr). lia.
  - intros fuel [s m] q a Hf (Hr & Hm & Hq) Ha. cbn in Hr, Hm. subst m.
    pose proof (nth_lt _ _ _ Ha).
    assert (Ha' : nth_error l q = Some a).
    { rewrite <- (firstn_skipn n l). now rewrite nth_error_app1. }
    destruct (law_next L fuel s q a Hf Hr Ha') as (s' & -> & Hr'). cbn.
    destruct (Z.geb_spec (Z.of_nat q) (Z.of_nat n)); [lia|].
    eexists. split; [reflexivity|]. cbn. repeat split; try easy; lia.
  - intros fuel [s m] Hf Hfin (Hr & Hm & Hq). cbn in Hr, Hm. subst m. rewrite Hlen in *.
    destruct (Z.geb_spec (Z.of_nat (Nat.min n (length l))) (Z.of_nat n)).
    + eexists. split; [reflexivity|]. cbn. auto.
    + assert (fin = true) as F by (destruct fin, (Nat.ltb_spec n (length l)); cbn in Hfin; easy || lia).
      replace (Nat.min n (length l)) with (length l) in * by lia.
      destruct (law_stop L fuel s Hf F Hr) as (s' & -> & Hr'). cbn.
      eexists. split; [reflexivity|]. cbn. auto.
  - intros [s m] q (Hr & Hm & Hq). cbn in *. split; [apply (law_get L); easy|easy].
  - intros [c m] q Hj (Hr & Hm). cbn in *. split; [apply (law_json L); easy|easy].
  - intros fuel [s m] q Hf (Hr & _) Hv. apply Hlive in Hv as [Hv _]. cbn in Hr.
    destruct (law_start L _ _ _ Hf Hr Hv) as (s' & E & Hr'). rewrite E. cbn.
    eexists. split; [reflexivity|]. cbn. repeat split; try easy; lia.
  - intros fuel [c m] q Hf (Hc' & Hm & Hq) Hv. apply Hlive in Hv as [Hv _]. cbn in *.
    destruct (law_fresh L _ _ _ Hf Hc' Hv) as (s' & E & Hr'). rewrite E. cbn.
    eexists. split; [reflexivity|]. cbn. auto.
  - intros fuel [s m'] q1 [c m] q Hf Hu (Hr & _) (Hc' & Hm & Hq) Hv. apply Hlive in Hv as [Hv _]. cbn in *.
    destruct (law_used L _ _ _ _ _ Hf Hu Hr Hc' Hv) as (s' & E & Hr'). rewrite E. cbn.
    eexists. split; [reflexivity|]. cbn. auto.
Qed.
Lemma lawful_limit {A} count (p : Iter A) it l fin used json :
  limit_it count p = Ok it -> lawful p l fin used json ->
  lawful it (firstn (Z.to_nat count) l) (fin || Nat.ltb (Z.to_nat count) (length l)) used json.
Proof.
  intros Hit (N & rep & crep & L). unfold limit_it in Hit.
  destruct (Z.leb_spec count 0) as [|Hc]; [discriminate|].
  match type of Hit with Ok ?X = _ => assert (it = X) as -> by congruence end.
  do 3 eexists. exact (limit_Law count p l fin used json N rep crep Hc L).
Qed.

(** ** A change of type *)
Lemma retype_Law {A B} (h : A -> B) p l fin used json N rep crep :
  Law p l fin used json N rep crep -> Law (retype h p) (map h l) fin used json N rep crep.
Proof.
  intros L. unfold retype.
  assert (Hlive : forall q, live (map h l) fin q -> live l fin q) by (intros q; unfold live; now rewrite map_length).
  split; cbn [ist ick init next get_state set_state jsonck].
  - apply (law_init L).
  - rewrite map_length. apply (law_le L).
  - intros fuel s q b Hf Hr Hb. rewrite nth_error_map in Hb. destruct (nth_error l q) as [a|] eqn:Ea; [|easy].
    injection Hb as <-. destruct (law_next L fuel s q a Hf Hr Ea) as (s' & -> & Hr'). cbn. eauto.
  - rewrite map_length. intros fuel s Hf F Hr. destruct (law_stop L fuel s Hf F Hr) as (s' & -> & Hr'). cbn. eauto.
  - apply (law_get L).
  - apply (law_json L).
  - intros fuel s q Hf Hr Hl. apply (law_start L fuel s q Hf Hr); auto.
  - intros fuel c q Hf Hr Hl. apply (law_fresh L fuel c q Hf Hr); auto.
  - intros fuel s q c q' Hf U Hr Hc Hl. apply (law_used L fuel s q c q' Hf U Hr Hc); auto.
Qed.
Lemma lawful_retype {A B} (h : A -> B) p l fin used json :
  lawful p l fin used json -> lawful (retype h p) (map h l) fin used json.
Proof. intros (N & rep & crep & L). do 3 eexists. exact (retype_Law h p l fin used json N rep crep L). Qed.
