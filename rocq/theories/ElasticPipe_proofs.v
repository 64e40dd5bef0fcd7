(** Proofs for ElasticPipe.v. *)
From Verif Require Import Base ListFacts Spec MapDatasets Iter IterSpec IterLaw Interleave InterleaveSpec Interleave_proofs Elastic MultiprocessSpec Multiprocess_proofs Prop_Elastic ElasticJob ElasticJob_proofs ElasticPipe ElasticPipeSpec.

(** ** Transformations that keep nothing *)

(** [P f s l]: from state [s] the iterator gives [l]; [f]: it has stopped already. *)
Definition gives {A} (p : Iter A) (N : nat) (P : bool -> ist p -> list A -> Prop) : Prop :=
  (forall s l, P true s l -> l = []) /\
  forall fuel f s l, (N <= fuel)%nat -> P f s l ->
    exists s' f', next p fuel s = (match l with [] => Stop | x :: _ => Yield x end, s') /\ P f' s' (tl l) /\ (l = [] -> f' = true).
Definition splits {A B} (T : list A -> list B) (m : nat) (l : list A) : Prop :=
  forall r, T (firstn m l ++ r) = T (firstn m l) ++ T r.
Definition faithful {A B} (st : stage A B) (T : list A -> list B) : Prop :=
  T [] = [] /\ (forall l, (length (T l) <= length l)%nat) /\
  (forall p s, inner st p (fresh st p s) = s) /\ (forall p, inner st p (init (over st p)) = init p) /\
  forall p N bound, exists N', forall P, gives p N P -> forall fuel f s l, (N' <= fuel)%nat -> (length l <= bound)%nat -> P f (inner st p s) l ->
    exists o s' f' m, next (over st p) fuel s = (o, s') /\ (m <= length l)%nat /\ P f' (inner st p s') (skipn m l) /\
      (f' = true \/ splits T m l) /\
      match o with Yield b => T (firstn m l) = [b] | Stop => f' = true /\ T (firstn m l) = [] | _ => False end.

Lemma faithful_same {A} : faithful (@same_stage A) (fun l => l).
Proof.
  split; [easy|]. split; [easy|]. split; [easy|]. split; [easy|]. intros p N bound. exists N. intros P [_ H] fuel f s l Hf _ HP.
  cbn [same_stage over inner] in *. destruct (H fuel f s l Hf HP) as (s' & f' & E & HP' & Hs). destruct l as [|x l].
  - exists Stop, s', f', 0%nat. rewrite E. cbn in HP' |- *. split; [easy|]. split; [lia|]. split; [exact HP'|]. rewrite Hs by easy. auto.
  - exists (Yield x), s', f', 1%nat. rewrite E. cbn in HP' |- *. split; [easy|]. split; [lia|]. split; [exact HP'|]. split; [right; intros r; reflexivity|reflexivity].
Qed.
Lemma faithful_map {A B} (f : A -> res (option B)) g : (forall x, f x = Ok (g x)) ->
  faithful (map_stage f) (map (fun e => match e with Some x => g x | None => None end)).
Proof.
  intros Hg. split; [easy|]. split; [intros l; now rewrite map_length|]. split; [easy|]. split; [easy|].
  intros p N bound. exists N. intros P [_ H] fuel fl s l Hf _ HP.
  cbn [map_stage over inner map_it next ist] in *. destruct (H fuel fl s l Hf HP) as (s' & f' & E & HP' & Hs). rewrite E. destruct l as [|x l]; cbn [bindn].
  - exists Stop, s', f', 0%nat. cbn in HP' |- *. split; [easy|]. split; [lia|]. split; [exact HP'|]. rewrite Hs by easy. auto.
  - exists (Yield (match x with Some x => g x | None => None end)), s', f', 1%nat. cbn in HP'. cbn [length firstn skipn map].
    split; [unfold map_element; destruct x as [x|]; [now rewrite Hg|easy]|]. split; [lia|]. split; [exact HP'|]. split; [right; intros r; reflexivity|reflexivity].
Qed.
Lemma filter_split {A} (g : A -> bool) m l : splits (List.filter g) m l.
Proof. intros r. apply filter_app. Qed.
Lemma faithful_filter {A} (f : A -> res bool) g : (forall x, f x = Ok (g x)) -> faithful (filter_stage None f) (List.filter g).
Proof.
  intros Hg. split; [easy|]. split.
  { intros l. induction l as [|x l IH]; [easy|]. cbn [List.filter]. destruct (g x); cbn [length]; lia. }
  split; [easy|]. split; [easy|]. intros p N bound. exists (N + bound + 1)%nat. intros P [Hn H] fuel fl s l Hf Hl HP.
  cbn [filter_stage over inner filter_it next ist] in *.
  assert (Hf' : (N + length l + 1 <= fuel)%nat) by lia. clear Hf Hl bound.
  revert fl s l Hf' HP. induction fuel as [|fuel IH]; intros fl s l Hf HP; [lia|]. cbn [filter_next].
  destruct (H fuel fl (fst s) l ltac:(lia) HP) as (s' & f' & E & HP' & Hs). rewrite E. destruct l as [|x l]; cbn [bindn].
  - exists Stop, (s', snd s), f', 0%nat. cbn in HP' |- *. split; [easy|]. split; [lia|]. split; [exact HP'|]. rewrite Hs by easy. auto.
  - rewrite Hg. cbn [tl length] in HP', Hf. destruct (check None (snd s) (g x)) as [c oe] eqn:Ec.
    assert (oe = None) as -> by (unfold check in Ec; cbn [reaches] in Ec; destruct (_ >=? _) in Ec; congruence).
    destruct (g x) eqn:Egx.
    + exists (Yield x), (s', c), f', 1%nat. cbn [length firstn skipn List.filter fst]. rewrite Egx. split; [easy|]. split; [lia|]. split; [exact HP'|]. split; [right; apply filter_split|reflexivity].
    + destruct (IH f' (s', c) l ltac:(lia) HP') as (o & s2 & f2 & m & E2 & Hm & HP2 & _ & Ho).
      exists o, s2, f2, (Datatypes.S m). cbn [length firstn skipn List.filter]. rewrite Egx. split; [exact E2|]. split; [lia|]. split; [exact HP2|]. split; [right; apply filter_split|exact Ho].
Qed.

Lemma batch_values_gives {A} drop (p : Iter A) N P fuel : gives p N P -> (N <= fuel)%nat -> forall k f s l values, P f s l ->
  exists s' f', P f' s' (skipn k l) /\ ((k <= length l)%nat \/ f' = true) /\
    batch_values drop p fuel k values s = (if (Nat.leb k (length l) || negb drop)%bool then Yield (values ++ firstn k l) else Stop, s').
Proof.
  intros HG Hf. induction k as [|k IH]; intros f s l values HP; cbn [batch_values].
  - exists s, f. cbn [skipn firstn Nat.leb orb]. rewrite app_nil_r. split; [exact HP|]. split; [left; lia|easy].
  - destruct HG as [Hn H]. destruct (H fuel f s l Hf HP) as (s1 & f1 & E & HP1 & Hs). rewrite E. destruct l as [|x l].
    + exists s1, f1. cbn in HP1. cbn [skipn firstn length Nat.leb orb]. rewrite app_nil_r. split; [exact HP1|]. split; [right; auto|]. now destruct drop.
    + cbn in HP1. destruct (IH f1 s1 l (values ++ [x]) HP1) as (s2 & f2 & HP2 & Hk & E2). exists s2, f2. cbn [skipn firstn length Nat.leb]. split; [exact HP2|].
      split; [destruct Hk; [left; lia|now right]|]. rewrite E2, <- app_assoc. reflexivity.
Qed.
Lemma chunks_app_full {A} b (l r : list A) : (0 < b)%nat -> length l = b -> chunks b (l ++ r) = l :: chunks b r.
Proof.
  intros Hb Hl. rewrite chunks_step; [|exact Hb|destruct l; [cbn in Hl; lia|easy]].
  now rewrite firstn_app, skipn_app, Hl, Nat.sub_diag, <- Hl, firstn_all, skipn_all, app_nil_r.
Qed.
Lemma chunks_short {A} b (l : list A) : (0 < b)%nat -> l <> [] -> (length l <= b)%nat -> chunks b l = [l].
Proof. intros Hb Hl Hle. rewrite chunks_step, firstn_all2, skipn_all2, chunks_nil by easy. reflexivity. Qed.
Lemma chunks_cover {A} b (l : list A) : (0 < b)%nat -> (length l <= b * length (chunks b l))%nat.
Proof.
  intros Hb. apply (chunks_ind b (fun l cs => (length l <= b * length cs)%nat) Hb); [cbn; lia|].
  intros l' Hl' IH. cbn [length]. rewrite skipn_length in IH. lia.
Qed.
Lemma chunks_count {A} b (l : list A) : (0 < b)%nat -> (length (chunks b l) <= length l)%nat.
Proof.
  intros Hb. pattern l, (chunks b l). apply chunks_ind; [exact Hb|easy|]. intros l0 Hl0 IH. cbn [length]. rewrite skipn_length in IH. destruct l0; [easy|]. cbn [length] in *. lia.
Qed.
Lemma faithful_batch {A B} b drop (make : list A -> res B) g : 0 < b -> (forall l, make l = Ok (g l)) ->
  faithful (batch_stage b drop make) (fun l => map g ((if drop then full_chunks else chunks) (Z.to_nat b) l)).
Proof.
  intros Hb Hg. set (k := Z.to_nat b). assert (Hk : (0 < k)%nat) by lia.
  split; [now destruct drop|]. split.
  { intros l. rewrite map_length. pose proof (chunks_count k l Hk). destruct drop; [|exact H]. rewrite full_chunks_firstn, firstn_length by exact Hk. lia. }
  split; [easy|]. split; [easy|]. intros p N bound. exists N. intros P HG fuel fl s l Hf _ HP.
  cbn [batch_stage over inner batch_iter next ist] in *. fold k.
  destruct (batch_values_gives drop p N P fuel HG Hf k fl s l [] HP) as (s' & f' & HP' & Hkl & E). rewrite E. cbn [app].
  destruct (Nat.leb_spec k (length l)) as [Hle|Hgt]; cbn [orb].
  - (* a full batch *)
    assert (Hlen : length (firstn k l) = k) by (rewrite firstn_length; lia).
    exists (Yield (g (firstn k l))), s', f', k. cbn [bindn]. split.
    { destruct (firstn k l) as [|x w] eqn:Ew; [cbn in Hlen; lia|]. now rewrite Hg. }
    split; [exact Hle|]. split; [exact HP'|].
    assert (HT : forall r, map g ((if drop then full_chunks else chunks) k (firstn k l ++ r)) = g (firstn k l) :: map g ((if drop then full_chunks else chunks) k r)).
    { intros r. destruct drop; [|now rewrite chunks_app_full]. unfold full_chunks. rewrite chunks_app_full by easy. cbn [filter]. now rewrite Hlen, Nat.eqb_refl. }
    assert (HT0 : map g ((if drop then full_chunks else chunks) k (firstn k l)) = [g (firstn k l)]).
    { specialize (HT []). rewrite app_nil_r in HT. rewrite HT. now destruct drop. }
    split; [|exact HT0]. right. intros r. now rewrite HT, HT0.
  - (* the end *)
    assert (f' = true) as -> by (destruct Hkl; [lia|easy]). rewrite skipn_all2 in HP' by lia. destruct drop; cbn [negb bindn].
    + exists Stop, s', true, (length l). rewrite skipn_all, firstn_all. split; [easy|]. split; [lia|]. split; [exact HP'|]. split; [now left|]. split; [easy|].
      rewrite full_chunks_firstn by exact Hk. rewrite Nat.div_small by lia. reflexivity.
    + rewrite firstn_all2 by lia. destruct l as [|x w] eqn:El.
      * exists Stop, s', true, 0%nat. cbn. repeat split; auto.
      * rewrite <- El in *. exists (Yield (g l)), s', true, (length l). rewrite skipn_all, firstn_all. split; [subst l; now rewrite Hg|]. split; [lia|]. split; [exact HP'|]. split; [now left|].
        rewrite chunks_short; [easy|exact Hk|now subst l|lia].
Qed.

Lemma faithful_then {A B C} (a : stage A B) (b : stage B C) T U : faithful a T -> faithful b U -> faithful (then_stage a b) (fun l => U (T l)).
Proof.
  intros (Ta & La & Fa & Ia & Ha) (Ub & Lb & Fb & Ib & Hb). split; [now rewrite Ta|]. split; [intros l; specialize (La l); specialize (Lb (T l)); lia|].
  split; [intros p s; cbn; now rewrite Fb, Fa|]. split; [intros p; cbn; now rewrite Ib, Ia|].
  intros p N bound. destruct (Ha p N bound) as (N1 & H1). destruct (Hb (over a p) N1 bound) as (N2 & H2). exists N2. intros P HG fuel f s l Hf Hl HP.
  cbn [then_stage over inner] in *.
  pose (P' := fun f' s' l' => exists k, (k <= length l)%nat /\ P f' (inner a p s') (skipn k l) /\ T (skipn k l) = l' /\ (f' = true \/ splits T k l)).
  assert (HG' : gives (over a p) N1 P').
  { split.
    - intros s1 l1 (k & Hk & HPk & <- & _). destruct HG as [HG _]. now rewrite (HG _ _ HPk).
    - intros fuel1 f1 s1 l1 Hf1 (k & Hk & HPk & <- & Hsp).
      destruct (H1 P HG fuel1 f1 s1 (skipn k l) Hf1 ltac:(rewrite skipn_length; lia) HPk) as (o & s2 & f2 & m & E & Hm & HP2 & Hsp2 & Ho).
      set (L := skipn k l) in *. rewrite E.
      assert (HTL : T L = T (firstn m L) ++ T (skipn m L)).
      { destruct Hsp2 as [->|Hsp2]; [|rewrite <- Hsp2; now rewrite firstn_skipn]. destruct HG as [HG _]. pose proof (HG _ _ HP2) as E0. rewrite E0, Ta, app_nil_r.
        rewrite <- (firstn_skipn m L) at 1. now rewrite E0, app_nil_r. }
      assert (HP2' : P' f2 s2 (T (skipn m L)) \/ T (firstn m L) = [] /\ f2 <> true).
      { destruct (Bool.bool_dec f2 true) as [E2|E2].
        - left. exists (k + m)%nat. unfold L in Hm. rewrite skipn_length in Hm. split; [lia|]. assert (El : skipn m L = skipn (k + m) l) by (unfold L; now rewrite skipn_skipn, Nat.add_comm).
          rewrite <- El. split; [exact HP2|]. split; [easy|]. now left.
        - destruct Hsp2 as [Hsp2|Hsp2]; [contradiction|]. destruct Hsp as [Hsp|Hsp].
          + right. split; [|exact E2]. subst f1. destruct HG as [HG _]. pose proof (HG _ _ HPk) as E0. rewrite E0. now rewrite firstn_nil.
          + left. exists (k + m)%nat. unfold L in Hm. rewrite skipn_length in Hm. split; [lia|]. assert (El : skipn m L = skipn (k + m) l) by (unfold L; now rewrite skipn_skipn, Nat.add_comm).
            rewrite <- El. split; [exact HP2|]. split; [easy|]. right. intros r.
            assert (Ef : firstn (k + m) l = firstn k l ++ firstn m L).
            { rewrite <- (firstn_skipn k l) at 1. fold L. rewrite firstn_app, firstn_firstn, Nat.min_r by lia. rewrite firstn_length, Nat.min_l by lia. now replace (k + m - k)%nat with m by lia. }
            rewrite Ef, <- app_assoc, Hsp, Hsp2, Hsp, <- app_assoc. reflexivity. }
      exists s2, f2. destruct o as [x| |e|]; try contradiction.
      + rewrite Ho in HTL. destruct HP2' as [HP2'|[HP2' _]]; [|congruence]. rewrite HTL. cbn. split; [easy|]. split; [exact HP2'|easy].
      + destruct Ho as [-> Ho]. destruct HP2' as [HP2'|[_ HP2']]; [|contradiction]. destruct HG as [HG _]. rewrite (HG _ _ HP2), Ta in HP2'. rewrite Ho, (HG _ _ HP2), Ta in HTL. rewrite HTL. cbn. auto. }
  destruct (H2 P' HG' fuel f s (T l) Hf ltac:(specialize (La l); lia)) as (o & s' & f' & m & E & Hm & (k & Hk & HPk & HTk & Hsp) & Hsp2 & Ho).
  { exists 0%nat. cbn [skipn]. split; [lia|]. split; [exact HP|]. split; [easy|]. right. intros r. cbn. now rewrite Ta. }
  assert (HTf : T (firstn k l) = firstn m (T l)).
  { destruct Hsp as [->|Hsp].
    - destruct HG as [HG _]. pose proof (HG _ _ HPk) as E0. rewrite E0, Ta in HTk.
      assert (El : firstn k l = l) by (rewrite <- (firstn_skipn k l) at 2; now rewrite E0, app_nil_r). rewrite El.
      symmetry. apply firstn_all2. apply (f_equal (@length B)) in HTk. rewrite skipn_length in HTk. cbn in HTk. lia.
    - specialize (Hsp (skipn k l)). rewrite firstn_skipn, HTk in Hsp. rewrite Hsp.
      assert (Em : length (T (firstn k l)) = m). { apply (f_equal (@length B)) in Hsp. rewrite app_length, skipn_length in Hsp. lia. }
      rewrite firstn_app, Em, Nat.sub_diag, (firstn_all2 (T (firstn k l))) by lia. now rewrite app_nil_r. }
  exists o, s', f', k. split; [exact E|]. split; [exact Hk|]. split; [exact HPk|]. rewrite HTf. split; [|exact Ho].
  destruct Hsp2 as [Hsp2|Hsp2]; [now left|]. destruct Hsp as [Hsp|Hsp]; [now left|]. right. intros r. now rewrite Hsp, HTf, Hsp2.
Qed.

Lemma plain_faithful {A B} (st : stage A B) T : plain st T -> faithful st T.
Proof.
  induction 1; [apply faithful_same|now apply faithful_map|now apply faithful_filter|now apply faithful_batch|now apply faithful_then].
Qed.

(** ** Reading *)
Lemma read_ok {A B} (st : stage A B) T : faithful st T -> forall p N bound, exists N', forall P, gives p N P ->
  (forall fuel k f s l, (N' <= fuel)%nat -> (length l <= bound)%nat -> P f (inner st p s) l ->
    exists m s' f', read (over st p) fuel k s = (T (firstn m l), s') /\ (m <= length l)%nat /\ P f' (inner st p s') (skipn m l) /\
      (f' = true \/ splits T m l) /\ (f = true -> f' = true)) /\
  (forall fuel f s l, (N' <= fuel)%nat -> (length l <= bound)%nat -> P f (inner st p s) l ->
    drain (over st p) fuel (Datatypes.S (length (T l))) s = (T l, Stop)).
Proof.
  intros (T0 & _ & _ & _ & H) p N bound. destruct (H p N bound) as (N' & H'). exists N'. intros P HG. specialize (H' P HG). destruct HG as [Hst _].
  assert (Hpart : forall f m s l, P f s (skipn m l) -> f = true \/ splits T m l -> T l = T (firstn m l) ++ T (skipn m l)).
  { intros f m s l HP [->|Hsp]; [|rewrite <- Hsp; now rewrite firstn_skipn]. pose proof (Hst _ _ HP) as E. rewrite E, T0, app_nil_r.
    rewrite <- (firstn_skipn m l) at 1. now rewrite E, app_nil_r. }
  split.
  - intros fuel k. induction k as [|k IH]; intros f s l Hf Hl HP; cbn [read].
    + exists 0%nat, s, f. cbn [firstn skipn]. rewrite T0. split; [easy|]. split; [lia|]. split; [exact HP|]. split; [|easy]. right. intros r. cbn. now rewrite T0.
    + destruct (H' fuel f s l Hf Hl HP) as (o & s1 & f1 & m1 & E & Hm1 & HP1 & Hsp1 & Ho). rewrite E. destruct o as [b| |e|]; try contradiction.
      * assert (Hnf : f <> true). { intros ->. rewrite (Hst _ _ HP), firstn_nil, T0 in Ho. easy. }
        destruct (IH f1 s1 (skipn m1 l) Hf ltac:(rewrite skipn_length; lia) HP1) as (m2 & s2 & f2 & E2 & Hm2 & HP2 & Hsp2 & Hmono). rewrite E2.
        rewrite skipn_length in Hm2. exists (m1 + m2)%nat, s2, f2.
        assert (Ef : firstn (m1 + m2) l = firstn m1 l ++ firstn m2 (skipn m1 l)).
        { rewrite <- (firstn_skipn m1 l) at 1. rewrite firstn_app, firstn_firstn, Nat.min_r by lia. rewrite firstn_length, Nat.min_l by lia. now replace (m1 + m2 - m1)%nat with m2 by lia. }
        assert (Es : skipn (m1 + m2) l = skipn m2 (skipn m1 l)) by now rewrite skipn_skipn, Nat.add_comm. rewrite Ef, Es.
        assert (HT : T (firstn m1 l ++ firstn m2 (skipn m1 l)) = b :: T (firstn m2 (skipn m1 l))).
        { destruct Hsp1 as [->|Hsp1]; [|now rewrite Hsp1, Ho]. pose proof (Hst _ _ HP1) as E0. rewrite E0, firstn_nil, app_nil_r, T0. exact Ho. }
        rewrite HT. split; [easy|]. split; [lia|]. split; [exact HP2|]. split; [|easy].
        destruct Hsp2 as [Hsp2|Hsp2]; [now left|]. destruct Hsp1 as [Hsp1|Hsp1]; [left; auto|]. right. intros r. rewrite Ef, <- app_assoc, Hsp1, Hsp2, Hsp1, <- app_assoc. reflexivity.
      * destruct Ho as [-> Ho]. exists m1, s1, true. rewrite Ho. auto.
  - intros fuel f s l Hf Hl HP. remember (length (T l)) as k eqn:Ek. revert f s l Hl HP Ek. induction k as [|k IH]; intros f s l Hl HP Ek.
    all: destruct (H' fuel f s l Hf Hl HP) as (o & s1 & f1 & m1 & E & Hm1 & HP1 & Hsp1 & Ho); pose proof (Hpart _ _ _ _ HP1 Hsp1) as HT.
    all: change (drain (over st p) fuel (Datatypes.S ?k) s) with (match next (over st p) fuel s with (Yield a, s') => let (l, o) := drain (over st p) fuel k s' in (a :: l, o) | (o, _) => ([], o) end); rewrite E.
    + destruct o as [b| |e|]; try contradiction; [rewrite HT, Ho in Ek; easy|]. now destruct (T l).
    + destruct o as [b| |e|]; try contradiction.
      * rewrite Ho in HT. cbn [app] in HT. rewrite HT in Ek |- *. injection Ek as Ek. now rewrite (IH f1 s1 (skipn m1 l) ltac:(rewrite skipn_length; lia) HP1 Ek).
      * destruct Ho as [-> Ho]. rewrite Ho, (Hst _ _ HP1), T0 in HT. rewrite HT in Ek. easy.
Qed.

(** ** The checkpoint files *)
Definition on_content {X Y} (g : X -> Y) (d : directory X) : directory Y := map (fun w => (fst w, g (snd w))) d.
Definition on_restored {X Y} (g : X -> Y) (r : restored X) : restored Y := match r with SetState c => SetState (g c) | SetShardStates l => SetShardStates (map g l) end.
Definition on_res {X Y} (g : X -> Y) (r : res X) : res Y := match r with Ok x => Ok (g x) | Raise e => Raise e | OutOfFuel => OutOfFuel end.
Lemma read_file_on {X Y} (g : X -> Y) d f : read_file (on_content g d) f = option_map g (read_file d f).
Proof. unfold read_file, on_content. induction d as [|[f' c] d IH]; [easy|]. cbn [map find fst snd]. destruct (file_eqb f' f); [easy|exact IH]. Qed.
Lemma collect_on {X Y} (g : X -> Y) d k fuel : forall i, collect_shards (on_content g d) k fuel i = on_res (map (fun x => (fst x, g (snd x)))) (collect_shards d k fuel i).
Proof.
  induction fuel as [|fuel IH]; intros i; [easy|]. cbn [collect_shards]. rewrite read_file_on. destruct (read_file d (ShardFile i)) as [c|]; [|easy]. cbn [option_map].
  rewrite IH. destruct (collect_shards d k fuel (i + k)); reflexivity.
Qed.
Lemma sort_on {X Y} (g : X -> Y) (l : list (Z * X)) : sort_by_key (map (fun x => (fst x, g (snd x))) l) = map (fun x => (fst x, g (snd x))) (sort_by_key l).
Proof.
  unfold sort_by_key. induction l as [|x l IH]; [easy|]. cbn [map fold_right]. rewrite IH. generalize (fold_right insert_by_key [] l). intros m. clear IH.
  induction m as [|y m IHm]; [easy|]. cbn [map insert_by_key fst snd]. destruct (fst x <=? fst y); [reflexivity|]. cbn [map]. now rewrite IHm.
Qed.
Lemma count_on {X Y} (g : X -> Y) d : checkpoint_process_count (on_content g d) = checkpoint_process_count d.
Proof. unfold checkpoint_process_count, on_content. induction d as [|[f c] d IH]; [easy|]. cbn [map fold_right fst]. now rewrite IH. Qed.
Lemma restore_on {X Y} (g : X -> Y) fuel d i n el : restore fuel (on_content g d) i n el = on_res (on_restored g) (restore fuel d i n el).
Proof.
  unfold restore. rewrite count_on, read_file_on. destruct el as [[si sk]|].
  - destruct (negb _).
    + rewrite collect_on. destruct (collect_shards d sk fuel si) as [l|e|]; [|reflexivity|reflexivity]. cbn [on_res bind on_restored]. unfold set_shard_states. rewrite sort_on, !map_map. reflexivity.
    + destruct (read_file d (ProcessFile i n)); reflexivity.
  - destruct (read_file d (ProcessFile i n)); reflexivity.
Qed.

(** ** Jobs *)
Lemma uniform_below (Q : nat -> nat -> Prop) K : (forall i N N', Q i N -> (N <= N')%nat -> Q i N') ->
  (forall i, (i < K)%nat -> exists N, Q i N) -> exists N, forall i, (i < K)%nat -> Q i N.
Proof.
  intros Hm. induction K as [|K IH]; intros H; [exists 0%nat; lia|].
  destruct IH as (N1 & H1); [intros; apply H; lia|]. destruct (H K ltac:(lia)) as (N2 & H2). exists (Nat.max N1 N2). intros i Hi.
  destruct (Nat.eq_dec i K) as [->|Hne]; [apply (Hm _ N2); [exact H2|lia]|apply (Hm _ N1); [apply H1; lia|lia]].
Qed.
Lemma label_count {A} L K (out : list (nat * A)) : (forall d, (K <= d)%nat -> of_dataset d out = []) -> (forall d, (length (of_dataset d out) <= L)%nat) -> (length out <= K * L)%nat.
Proof.
  revert out. induction K as [|K IH]; intros out H0 HL.
  - destruct out as [|[d x] out]; [easy|]. specialize (H0 d ltac:(lia)). unfold of_dataset in H0. cbn [filter fst] in H0. rewrite Nat.eqb_refl in H0. easy.
  - pose (rest := filter (fun e => negb (Nat.eqb (fst e) K)) out).
    assert (Hof : forall d, of_dataset d rest = if Nat.eqb d K then [] else of_dataset d out).
    { intros d. unfold of_dataset, rest. clear. induction out as [|[d' x] out IH]; [now destruct (Nat.eqb d K)|]. cbn [filter fst].
      destruct (Nat.eqb_spec d' K) as [->|Hne]; cbn [negb].
      - rewrite IH. destruct (Nat.eqb_spec d K) as [E|E]; [easy|]. destruct (Nat.eqb_spec K d); [congruence|easy].
      - cbn [filter fst]. destruct (Nat.eqb_spec d' d) as [E|E]; [|exact IH]. cbn [map]. rewrite IH. destruct (Nat.eqb_spec d K); [congruence|easy]. }
    assert (Hlen : length out = (length (of_dataset K out) + length rest)%nat).
    { unfold of_dataset, rest. rewrite map_length. clear. induction out as [|[d' x] out IH]; [easy|]. cbn [filter fst]. destruct (Nat.eqb d' K); cbn [negb length]; lia. }
    specialize (IH rest). rewrite Hlen. specialize (HL K) as HK. assert (length rest <= K * L)%nat; [|lia]. apply IH.
    + intros d Hd. rewrite Hof. destruct (Nat.eqb_spec d K); [easy|]. apply H0. lia.
    + intros d. rewrite Hof. destruct (Nat.eqb d K); [cbn; lia|apply HL].
Qed.

Section Job.
Context {S C A B : Type}.
Variable D : list (hiter S C A).
Variable cycle_length : nat.
Variable keep : bool.
Variable truthy : C -> bool.
Variable st : nat -> stage A B.
Variable check : nat -> res unit.
Variable T : nat -> list A -> list B.
Variable ls : list (list A).
Variables (used : bool) (N0 : nat).
Variable rep : nat -> S -> nat -> Prop.
Variable crep : nat -> C -> nat -> Prop.
Hypothesis F : family D truthy ls used true N0 rep crep.
Hypothesis Hcyc : (0 < cycle_length)%nat.
Hypothesis Htruthy : forall c, truthy c = true.
Hypothesis Hst : forall n, (0 < n <= length D)%nat -> check n = Ok tt -> faithful (st n) (T n).
Notation M := (length D).
Notation src := (source D cycle_length keep truthy).
Notation hit := (host_it D cycle_length keep truthy st).
Notation hhas := (host_has D cycle_length ls rep crep).
Notation jhas := (job_has D cycle_length ls rep crep).

(** What a host's interleave gives. *)
Definition of_out n h (out : list (nat * A)) (f : bool) (s : il S C) (l : list A) : Prop := exists k, (k <= length out)%nat /\
  to_give (host_shards D n h) cycle_length (stride n h ls) (hrep rep n h) (hcrep crep n h) s (skipn k out) /\ marks (host_shards D n h) cycle_length s /\
  l = map snd (skipn k out) /\ (f = true -> l = []).
Lemma of_out_gives n h out : (0 < n)%nat -> gives (src n h) (job_enough D N0) (of_out n h out).
Proof.
  intros Hn. split.
  - intros s l (k & _ & _ & _ & _ & H). now apply H.
  - intros fuel f s l Hf (k & Hk & Hg & Hm & -> & _).
    destruct (next_ok (host_shards D n h) cycle_length keep truthy _ _ _ _ _ _ (host_family D truthy ls used true N0 rep crep F n h Hn) fuel s (skipn k out)) as (s' & E & Hg' & _ & Hm').
    { pose proof (job_enough_ok D cycle_length N0 n h Hn). lia. } { exact Hg. }
    assert (Et : tl (skipn k out) = skipn (Datatypes.S k) out).
    { clear. revert out. induction k as [|k IH]; intros [|x out]; try easy. cbn [skipn] in *. apply IH. }
    cbn [source interleave_it next ist]. rewrite E. destruct (skipn k out) as [|[j x] rest] eqn:Es; cbn [map snd tl] in *.
    + exists s', true. split; [easy|]. split; [|easy]. exists k. rewrite Es. split; [exact Hk|]. split; [exact Hg'|]. split; [auto|]. split; easy.
    + exists s', false. split; [easy|]. split; [|easy]. exists (Datatypes.S k). assert (k < length out)%nat. { apply (f_equal (@length _)) in Es. rewrite skipn_length in Es. cbn in Es. lia. }
      rewrite <- Et. split; [lia|]. split; [exact Hg'|]. split; [auto|]. split; easy.
Qed.

Definition longest := list_max (map (@length A) ls).
Definition bound := (M * longest)%nat.
Lemma host_out_bound n h rem s out : (0 < n)%nat -> (forall j, (M <= j)%nat -> rem j = []) -> (forall j, (length (rem j) <= longest)%nat) -> hhas n rem h s out -> (length out <= bound)%nat.
Proof.
  intros Hn H0 HL (_ & _ & Hd). apply label_count.
  - intros d Hge. rewrite Hd. apply H0. nia.
  - intros d. rewrite Hd. apply HL.
Qed.

Lemma uniform : exists N1, forall n h, (0 < n <= M)%nat -> check n = Ok tt -> (h < n)%nat -> forall P, gives (src n h) (job_enough D N0) P ->
  (forall fuel k f s l, (N1 <= fuel)%nat -> (length l <= bound)%nat -> P f (inner (st n) (src n h) s) l ->
    exists m s' f', read (hit n h) fuel k s = (T n (firstn m l), s') /\ (m <= length l)%nat /\ P f' (inner (st n) (src n h) s') (skipn m l) /\
      (f' = true \/ splits (T n) m l) /\ (f = true -> f' = true)) /\
  (forall fuel f s l, (N1 <= fuel)%nat -> (length l <= bound)%nat -> P f (inner (st n) (src n h) s) l ->
    drain (hit n h) fuel (Datatypes.S (length (T n l))) s = (T n l, Stop)).
Proof.
  pose (Q := fun n h N1 => forall P, gives (src n h) (job_enough D N0) P ->
  (forall fuel k f s l, (N1 <= fuel)%nat -> (length l <= bound)%nat -> P f (inner (st n) (src n h) s) l ->
    exists m s' f', read (hit n h) fuel k s = (T n (firstn m l), s') /\ (m <= length l)%nat /\ P f' (inner (st n) (src n h) s') (skipn m l) /\
      (f' = true \/ splits (T n) m l) /\ (f = true -> f' = true)) /\
  (forall fuel f s l, (N1 <= fuel)%nat -> (length l <= bound)%nat -> P f (inner (st n) (src n h) s) l ->
    drain (hit n h) fuel (Datatypes.S (length (T n l))) s = (T n l, Stop))).
  assert (HQ : forall n h N1 N2, Q n h N1 -> (N1 <= N2)%nat -> Q n h N2).
  { intros n h N1 N2 H Hle P HP. destruct (H P HP) as [Ha Hb]. split.
    - intros fuel k f s l Hf. apply Ha. lia.
    - intros fuel f s l Hf. apply Hb. lia. }
  destruct (uniform_below (fun n N1 => (0 < n)%nat -> check n = Ok tt -> forall h, (h < n)%nat -> Q n h N1) (Datatypes.S M)) as (N1 & H1).
  - intros n N1 N2 H Hle Hn Hk h Hh. apply (HQ n h N1); [now apply H|exact Hle].
  - intros n Hn. destruct (Nat.eq_dec n 0) as [->|Hne]; [exists 0%nat; lia|].
    destruct (check n) as [[]|e|] eqn:Ek; try (exists 0%nat; easy).
    destruct (uniform_below (fun h N1 => Q n h N1) n) as (N1 & H1).
    + intros h Na Nb. apply HQ.
    + intros h Hh. apply (read_ok (st n) (T n) (Hst n ltac:(lia) Ek) (src n h) (job_enough D N0) bound).
    + exists N1. intros _ _ h Hh. now apply H1.
  - exists N1. intros n h Hn Hk Hh. apply H1; [lia|lia|exact Hk|exact Hh].
Qed.

(** The interleaves of all hosts. *)
Definition inners n (ss : forall h, ist (hit n h)) : list (il S C) := map (fun h => inner (st n) (src n h) (ss h)) (seq 0 n).
Lemma inners_nth n ss h s : nth_error (inners n ss) h = Some s -> (h < n)%nat /\ s = inner (st n) (src n h) (ss h).
Proof.
  unfold inners. rewrite nth_error_map. destruct (nth_error (seq 0 n) h) as [h'|] eqn:E; [|easy]. assert (Hh : (h < n)%nat) by (apply nth_error_lt in E; now rewrite seq_length in E).
  apply nth_error_nth with (d := 0%nat) in E. rewrite seq_nth in E by exact Hh. cbn in E. subst h'. cbn. intros [= <-]. auto.
Qed.
Lemma inners_length n ss : length (inners n ss) = n.
Proof. unfold inners. now rewrite map_length, seq_length. Qed.

Definition has n ss rem := jhas n (inners n ss) rem /\ forall j, (length (rem j) <= longest)%nat.

Variable N1 : nat.
Hypothesis HN1 : forall n h, (0 < n <= M)%nat -> check n = Ok tt -> (h < n)%nat -> forall P, gives (src n h) (job_enough D N0) P ->
  (forall fuel k f s l, (N1 <= fuel)%nat -> (length l <= bound)%nat -> P f (inner (st n) (src n h) s) l ->
    exists m s' f', read (hit n h) fuel k s = (T n (firstn m l), s') /\ (m <= length l)%nat /\ P f' (inner (st n) (src n h) s') (skipn m l) /\
      (f' = true \/ splits (T n) m l) /\ (f = true -> f' = true)) /\
  (forall fuel f s l, (N1 <= fuel)%nat -> (length l <= bound)%nat -> P f (inner (st n) (src n h) s) l ->
    drain (hit n h) fuel (Datatypes.S (length (T n l))) s = (T n l, Stop)).

Lemma host_reads n h fuel k s rem out : (0 < n <= M)%nat -> check n = Ok tt -> (h < n)%nat -> (N1 <= fuel)%nat -> (length out <= bound)%nat ->
  hhas n rem h (inner (st n) (src n h) s) out ->
  (exists m, (m <= length out)%nat /\ fst (read (hit n h) fuel k s) = T n (map snd (firstn m out)) /\
    to_give (host_shards D n h) cycle_length (stride n h ls) (hrep rep n h) (hcrep crep n h) (inner (st n) (src n h) (snd (read (hit n h) fuel k s))) (skipn m out) /\
    marks (host_shards D n h) cycle_length (inner (st n) (src n h) (snd (read (hit n h) fuel k s)))) /\
  drain (hit n h) fuel (Datatypes.S (length (T n (map snd out)))) s = (T n (map snd out), Stop).
Proof.
  intros Hn Hck Hh Hf Hl (Hg & Hm & _). destruct (HN1 n h Hn Hck Hh (of_out n h out) (of_out_gives n h out ltac:(lia))) as [Hread Hdrain].
  assert (HP : of_out n h out false (inner (st n) (src n h) s) (map snd out)).
  { exists 0%nat. cbn [skipn]. split; [lia|]. split; [exact Hg|]. split; [exact Hm|]. split; easy. }
  split; [|apply (Hdrain fuel false); [exact Hf|now rewrite map_length|exact HP]].
  destruct (Hread fuel k false s (map snd out) Hf ltac:(now rewrite map_length) HP) as (m & s' & f' & E & Hml & (k' & Hk' & Hg' & Hm' & El & _) & _).
  rewrite map_length in Hml. assert (k' = m) as ->. { apply (f_equal (@length A)) in El. rewrite skipn_length, !map_length, skipn_length in El. lia. }
  exists m. rewrite E. cbn [fst snd]. rewrite firstn_map. auto.
Qed.

Lemma pipe_read_ok n ss rem fuel ks : (0 < n <= M)%nat -> check n = Ok tt -> (N1 <= fuel)%nat -> has n ss rem ->
  exists (reads : list (list (nat * A))) rem', length reads = n /\
    map (fun h => fst (read (hit n h) fuel (ks h) (ss h))) (seq 0 n) = map (fun xs => T n (map snd xs)) reads /\
    has n (fun h => snd (read (hit n h) fuel (ks h) (ss h))) rem' /\ forall j, of_dataset j (concat reads) ++ rem' j = rem j.
Proof.
  intros Hn Hck Hf (H & HL). destruct (job_outs D cycle_length ls rep crep Hcyc n _ rem H) as (outs & Hol & HO). destruct H as (Hl & Hrem & H).
  pose proof (rem_outs D cycle_length ls rep crep Hcyc n _ rem outs ltac:(lia) Hl Hol HO) as Hr.
  assert (HO' : forall h out, (h < n)%nat -> nth_error outs h = Some out -> hhas n rem h (inner (st n) (src n h) (ss h)) out).
  { intros h out Hh Eo. apply (HO h _ out); [|exact Eo]. destruct (nth_error_some (inners n ss) h ltac:(lia)) as (s & Es). rewrite Es. apply inners_nth in Es as [_ ->]. reflexivity. }
  destruct (finite_choice (fun h m => forall out, nth_error outs h = Some out -> (m <= length out)%nat /\ fst (read (hit n h) fuel (ks h) (ss h)) = T n (map snd (firstn m out)) /\
    to_give (host_shards D n h) cycle_length (stride n h ls) (hrep rep n h) (hcrep crep n h) (inner (st n) (src n h) (snd (read (hit n h) fuel (ks h) (ss h)))) (skipn m out) /\
    marks (host_shards D n h) cycle_length (inner (st n) (src n h) (snd (read (hit n h) fuel (ks h) (ss h))))) n) as (ms & Hml & HM).
  { intros h Hh. destruct (nth_error_some outs h ltac:(lia)) as (out & Eo). pose proof (HO' h out Hh Eo) as Hho.
    destruct (host_reads n h fuel (ks h) (ss h) rem out Hn Hck Hh Hf ltac:(apply (host_out_bound n h rem _ out ltac:(lia) Hrem HL Hho)) Hho) as ((m & Hm) & _).
    exists m. intros out' Eo'. rewrite Eo in Eo'. injection Eo' as <-. exact Hm. }
  set (first := map (fun ho => firstn (nth (fst ho) ms 0%nat) (snd ho)) (combine (seq 0 n) outs)).
  set (rest := map (fun ho => skipn (nth (fst ho) ms 0%nat) (snd ho)) (combine (seq 0 n) outs)).
  assert (Hfirst : forall h out, nth_error outs h = Some out -> nth_error first h = Some (firstn (nth h ms 0%nat) out)).
  { intros h out Ho. unfold first. rewrite nth_error_map, nth_combine_seq by exact Hol. now rewrite Ho. }
  assert (Hrest : forall h out, nth_error outs h = Some out -> nth_error rest h = Some (skipn (nth h ms 0%nat) out)).
  { intros h out Ho. unfold rest. rewrite nth_error_map, nth_combine_seq by exact Hol. now rewrite Ho. }
  assert (Hfl : length first = n) by (unfold first; rewrite map_length, combine_length, seq_length; lia).
  assert (HM' : forall h out, (h < n)%nat -> nth_error outs h = Some out -> fst (read (hit n h) fuel (ks h) (ss h)) = T n (map snd (firstn (nth h ms 0%nat) out)) /\
    to_give (host_shards D n h) cycle_length (stride n h ls) (hrep rep n h) (hcrep crep n h) (inner (st n) (src n h) (snd (read (hit n h) fuel (ks h) (ss h)))) (skipn (nth h ms 0%nat) out) /\
    marks (host_shards D n h) cycle_length (inner (st n) (src n h) (snd (read (hit n h) fuel (ks h) (ss h))))).
  { intros h out Hh Eo. destruct (nth_error_some ms h ltac:(lia)) as (m & Em). rewrite nth_of_error, Em. now apply (HM h m Em out Eo). }
  assert (Hr2 : forall j, of_dataset (j / n) (nth (j mod n) first []) ++ of_dataset (j / n) (nth (j mod n) rest []) = rem j).
  { intros j. rewrite <- Hr, <- of_dataset_app. f_equal. assert (Hjn : (j mod n < n)%nat) by (apply Nat.mod_upper_bound; lia).
    destruct (nth_error_some outs (j mod n) ltac:(lia)) as (out & Eo). rewrite !nth_of_error, (Hrest _ _ Eo), (Hfirst _ _ Eo), Eo. apply firstn_skipn. }
  exists (map (fun ho => relabel n (fst ho) (snd ho)) (combine (seq 0 n) first)), (fun j => of_dataset (j / n) (nth (j mod n) rest [])).
  split; [rewrite map_length, combine_length, seq_length; lia|]. split; [|split; [split; [split; [|split]|]|]].
  - apply nth_error_ext. intros h. rewrite !nth_error_map, nth_combine_seq by exact Hfl. destruct (Nat.lt_ge_cases h n) as [Hh|Hh].
    + destruct (nth_error_some outs h ltac:(lia)) as (out & Eo). rewrite (Hfirst h out Eo). destruct (nth_error_some (seq 0 n) h ltac:(now rewrite seq_length)) as (h' & Eh'). rewrite Eh'.
      apply nth_error_nth with (d := 0%nat) in Eh'. rewrite seq_nth in Eh' by exact Hh. cbn in Eh'. subst h'. cbn [option_map fst snd]. destruct (HM' h out Hh Eo) as (E & _). rewrite E.
      unfold relabel. now rewrite map_map.
    + rewrite !(proj2 (nth_error_None _ _)) by (rewrite ?seq_length; lia). reflexivity.
  - apply inners_length.
  - intros j Hj. specialize (Hrem j Hj). rewrite <- Hr2 in Hrem. now apply app_eq_nil in Hrem as [_ Hrem].
  - intros h s' Es'. apply inners_nth in Es' as [Hh ->]. destruct (nth_error_some outs h ltac:(lia)) as (out & Eo). destruct (HM' h out Hh Eo) as (_ & Hg & Hm).
    exists (skipn (nth h ms 0%nat) out). split; [exact Hg|]. split; [exact Hm|]. intros d.
    assert (Hmod : ((h + d * n) mod n = h)%nat) by (rewrite Nat.mod_add by lia; now apply Nat.mod_small).
    assert (Hdiv : ((h + d * n) / n = d)%nat) by (rewrite Nat.div_add by lia; now rewrite Nat.div_small).
    now rewrite Hmod, Hdiv, (nth_of_error rest), (Hrest _ _ Eo).
  - intros j. pose proof (HL j) as HLj. rewrite <- Hr2, app_length in HLj. cbn beta. lia.
  - intros j. rewrite (relabelled cycle_length Hcyc n first j ltac:(lia) Hfl). apply Hr2.
Qed.

(** Saving and restoring: as without the transformations. *)
Definition old_content (x : content (C := C)) : (bool * C) + unit := match x with inl y => inl y | inr _ => inr tt end.
Definition new_content (x : pcontent D cycle_length keep truthy st) : (bool * C) + unit := match x with inl y => inl y | inr _ => inr tt end.
Definition same_files (d' : directory (pcontent D cycle_length keep truthy st)) (d : directory (content (C := C))) : Prop := on_content new_content d' = on_content old_content d.

Lemma combine_map {X Y} (f : X -> Y) l : combine l (map f l) = map (fun x => (x, f x)) l.
Proof. induction l as [|x l IH]; [easy|]. cbn. now rewrite IH. Qed.
Lemma sequence_rel {X Y Z'} (f : X -> res Y) (f' : X -> res Z') (R : Z' -> Y -> Prop) l : forall r, sequence (map f l) = Ok r ->
  (forall x y, In x l -> f x = Ok y -> exists z, f' x = Ok z /\ R z y) -> exists r', sequence (map f' l) = Ok r' /\ Forall2 R r' r.
Proof.
  induction l as [|x l IH]; intros r E H; cbn [map sequence] in *; [injection E as <-; now exists []|].
  destruct (f x) as [y|e|] eqn:Ef; try easy. cbn [bind] in E. destruct (sequence (map f l)) as [r0|e|] eqn:Es; try easy. cbn [bind] in E. injection E as <-.
  destruct (H x y (or_introl eq_refl) Ef) as (z & Ez & Hz). rewrite Ez. cbn [bind]. destruct (IH r0 eq_refl ltac:(intros; apply H; [now right|easy])) as (r' & Er & Hr). rewrite Er. cbn [bind].
  exists (z :: r'). auto.
Qed.
Lemma pipe_save_ok n ss d : job_save D cycle_length n (inners n ss) = Ok d -> exists d', pipe_save D cycle_length keep truthy st n ss = Ok d' /\ same_files d' d.
Proof.
  unfold job_save, pipe_save, inners. rewrite combine_map, map_map. cbn [fst snd].
  destruct (sequence (map (fun x => host_save D cycle_length n x (inner (st n) (src n x) (ss x))) (seq 0 n))) as [parts|e|] eqn:E; try easy. cbn [bind]. intros [= <-].
  destruct (sequence_rel _ (fun h => pipe_host_save D cycle_length keep truthy st n h (ss h)) same_files _ _ E) as (parts' & E' & HP).
  - intros h part _ Eh. unfold host_save in Eh. unfold pipe_host_save.
    destruct (il_get_shards (host_shards D n h) cycle_length (inner (st n) (src n h) (ss h))) as [l|e|]; try easy. cbn [bind] in Eh |- *.
    destruct (il_get (host_shards D n h) cycle_length (inner (st n) (src n h) (ss h))) as [[c s1]|e|]; try easy. cbn [bind] in Eh. injection Eh as <-.
    eexists. split; [reflexivity|]. unfold same_files, on_content, save_writes. rewrite !map_app. cbn [map fst snd old_content new_content]. f_equal. rewrite !map_map. cbn [fst snd].
    unfold get_shard_states. rewrite !map_length. generalize (map (fun local => local * Z.of_nat n + Z.of_nat h) (zrange 0 (length (shard_states l)))). intros js.
    generalize (shard_states l). intros sh. clear. revert js. induction sh as [|[e c] sh IH]; intros [|j js]; try reflexivity. cbn [map combine fst snd content_json pjson old_content new_content]. now rewrite IH.
  - rewrite E'. cbn [bind]. eexists. split; [reflexivity|]. unfold same_files, on_content. rewrite !concat_map. f_equal.
    clear E E'. induction HP as [|p' p ps' ps Hp HP IH]; [easy|]. cbn [map]. now rewrite Hp, IH.
Qed.

Lemma same_restore d' d fuel i n el : same_files d' d -> on_res (on_restored new_content) (restore fuel d' i n el) = on_res (on_restored old_content) (restore fuel d i n el).
Proof. intros H. rewrite <- !restore_on. now rewrite H. Qed.
Lemma same_flags l' l : map new_content l' = map old_content l -> map (pflag D cycle_length keep truthy st) l' = map flag l /\ length l' = length l /\
  sequence (map (fun x => match x with inl y => Ok y | inr _ => Raise KeyError end) l') = sequence (map (fun x => match x with inl y => Ok y | inr _ => Raise KeyError end) l).
Proof.
  revert l. induction l' as [|x' l' IH]; intros [|x l] H; try easy. cbn [map] in H. injection H as H1 H2. destruct (IH l H2) as (Ha & Hb & Hc). cbn [map length sequence]. rewrite Ha, Hb, Hc.
  destruct x' as [[e' c']|c'], x as [[e c]|c]; cbn in H1; try easy. injection H1 as -> ->. auto.
Qed.
Lemma same_ordered d' d fuel n : same_files d' d -> pipe_restore_ordered D cycle_length keep truthy st fuel d' n = restore_ordered cycle_length fuel d n.
Proof.
  intros H. unfold pipe_restore_ordered, restore_ordered. induction (seq 0 n) as [|h hs IH]; [reflexivity|]. cbn [forallb]. rewrite IH. f_equal.
  pose proof (same_restore d' d fuel (Z.of_nat h) (Z.of_nat n) (Some (Z.of_nat h, Z.of_nat n)) H) as E.
  destruct (restore fuel d' _ _ _) as [[c'|l']|e'|], (restore fuel d _ _ _) as [[c|l]|e|]; cbn in E; try easy. injection E as E. destruct (same_flags l' l E) as (-> & -> & _). reflexivity.
Qed.
Lemma pipe_restore_ok n fuel d' d ss : (0 < n <= M)%nat -> check n = Ok tt -> same_files d' d ->
  (forall h, (h < n)%nat -> exists l, restore fuel d (Z.of_nat h) (Z.of_nat n) (Some (Z.of_nat h, Z.of_nat n)) = Ok (SetShardStates l)) ->
  job_restore D cycle_length keep truthy fuel d n = Ok ss ->
  exists ss', pipe_restore D cycle_length keep truthy st fuel d' n = Ok ss' /\ inners n ss' = ss.
Proof.
  intros Hn Hck Hd Hres E. unfold job_restore in E.
  assert (Hh : forall h s, (h < n)%nat -> host_restore D cycle_length keep truthy fuel d n h = Ok s -> pipe_host_restore D cycle_length keep truthy st fuel d' n h = Ok (fresh (st n) (src n h) s)).
  { intros h s Hh Es. destruct (Hres h Hh) as (l & El). pose proof (same_restore d' d fuel (Z.of_nat h) (Z.of_nat n) (Some (Z.of_nat h, Z.of_nat n)) Hd) as Er.
    unfold host_restore in Es. unfold pipe_host_restore. rewrite El in Es, Er. destruct (restore fuel d' _ _ _) as [[c'|l']|e'|]; cbn in Er; try easy. injection Er as Er.
    destruct (same_flags l' l Er) as (_ & _ & Eq). cbn [bind] in Es |- *.
    match type of Es with bind ?q _ = _ => match goal with |- bind ?q' _ = _ => assert (Eq' : q' = q) by exact Eq; rewrite Eq'; destruct q as [ll|e|]; try easy end end.
    cbn [bind] in Es |- *. now rewrite Es. }
  unfold pipe_restore. destruct (sequence_rel _ (fun h => let! _ := pipe_host_restore D cycle_length keep truthy st fuel d' n h in Ok tt) (fun _ _ => True) (seq 0 n) _ E) as (r' & Er' & _).
  - intros h s Hi Es. apply in_seq in Hi. exists tt. split; [|easy]. rewrite (Hh h s ltac:(lia) Es). reflexivity.
  - rewrite Er'. cbn [bind]. eexists. split; [reflexivity|]. unfold inners. cbn beta.
    assert (G : forall hs, (forall h, In h hs -> (h < n)%nat) -> forall ss, sequence (map (host_restore D cycle_length keep truthy fuel d n) hs) = Ok ss ->
      map (fun h => inner (st n) (src n h) (match pipe_host_restore D cycle_length keep truthy st fuel d' n h with Ok s => s | _ => init (hit n h) end)) hs = ss).
    { induction hs as [|h hs IH]; intros Hin ss0 E0; cbn [map sequence] in *; [now injection E0|].
      destruct (host_restore D cycle_length keep truthy fuel d n h) as [s|e|] eqn:Eh; try easy. cbn [bind] in E0.
      destruct (sequence (map (host_restore D cycle_length keep truthy fuel d n) hs)) as [r|e|] eqn:Es; try easy. cbn [bind] in E0. injection E0 as <-.
      rewrite (Hh h s (Hin h (or_introl eq_refl)) Eh). rewrite (IH ltac:(intros; apply Hin; now right) r eq_refl). f_equal. destruct (Hst n Hn Hck) as (_ & _ & Hfr & _). apply Hfr. }
    apply G; [|exact E]. intros h Hi. apply in_seq in Hi. lia.
Qed.

Fixpoint checked n (later : list (nat * (nat -> nat))) : Prop := check n = Ok tt /\ match later with [] => True | (n', _) :: later' => checked n' later' end.

Lemma pipe_ok fuel : (job_enough D N0 <= fuel)%nat -> (N1 <= fuel)%nat -> forall later n ks ss rem, counts_ok D n later -> checked n later -> has n ss rem ->
  pipe_ordered D cycle_length keep truthy st fuel n ks later ss = true ->
  exists (reads : list (list (list (nat * A)))) n' ss' rem',
    pipe_job D cycle_length keep truthy st check fuel n ks later ss
    = Ok (map (fun nr => map (fun xs => T (fst nr) (map snd xs)) (snd nr)) (combine (n :: map fst later) reads), existT _ n' ss') /\
    length reads = Datatypes.S (length later) /\ n' = last (n :: map fst later) 0%nat /\ (0 < n' <= M)%nat /\
    has n' ss' rem' /\ forall j, of_dataset j (concat (concat reads)) ++ rem' j = rem j.
Proof.
  intros Hf Hf1. assert (HfN : (N0 <= fuel)%nat) by (unfold job_enough in Hf; lia). assert (HfM : (M < fuel)%nat) by (unfold job_enough in Hf; lia).
  induction later as [|[n' ks'] later IH]; intros n ks ss rem Hc Hck HJ Hord; cbn [pipe_job].
  - destruct Hc as (Hn & _). destruct Hck as (Hck & _). rewrite Hck. cbn [bind]. destruct (pipe_read_ok n ss rem fuel ks Hn Hck Hf1 HJ) as (reads & rem' & Hl & E & HJ' & Hr).
    exists [reads], n, (fun h => snd (read (hit n h) fuel (ks h) (ss h))), rem'. rewrite E. cbn [map combine fst snd last concat length]. split; [reflexivity|].
    split; [easy|]. split; [easy|]. split; [exact Hn|]. split; [exact HJ'|]. rewrite app_nil_r. exact Hr.
  - destruct Hc as (Hn & Hne & Hc). destruct Hck as (Hck & Hck'). rewrite Hck. cbn [bind]. destruct (pipe_read_ok n ss rem fuel ks Hn Hck Hf1 HJ) as (reads & rem1 & Hl & E & HJ1 & Hr1).
    destruct (job_save_ok D cycle_length truthy ls used true N0 rep crep F Hcyc eq_refl n _ rem1 ltac:(lia) ltac:(lia) (proj1 HJ1)) as (G & stt & state & d & rd & HL & Hstt & Es & Hd).
    destruct (pipe_save_ok n _ d Es) as (d' & Es' & Hsame).
    cbn [pipe_ordered] in Hord. rewrite Es' in Hord. apply andb_true_iff in Hord as [Hord1 Hord2]. rewrite (same_ordered d' d fuel n' Hsame) in Hord1.
    assert (Hn' : (0 < n' <= M)%nat) by (destruct later as [|[? ?] ?]; apply Hc).
    destruct (job_restore_ok D cycle_length keep truthy ls used true N0 rep crep F Hcyc Htruthy n n' fuel G stt state d rem1 rd) as (ss2 & E2 & HJ2); try assumption; try lia.
    { apply HJ1. }
    destruct (pipe_restore_ok n' fuel d' d ss2 Hn' ltac:(destruct later as [|[? ?] ?]; apply Hck') Hsame) as (ss2' & E2' & Ein); [|exact E2|].
    { intros h Hh. eexists. apply (C52_elastic_resize (Z.of_nat n) M stt state d); auto; lia. }
    rewrite E2' in Hord2. assert (HJ2' : has n' ss2' rem1) by (split; [now rewrite Ein|apply HJ1]).
    destruct (IH n' ks' ss2' rem1 Hc Hck' HJ2' Hord2) as (reads2 & n2 & ss3 & rem2 & E3 & Hl2 & Hn2 & Hn2' & HJ3 & Hr3).
    exists (reads :: reads2), n2, ss3, rem2. rewrite Es'. cbn [bind]. rewrite E2'. cbn [bind]. rewrite E3. cbn [bind map combine fst snd]. rewrite E. split; [reflexivity|].
    split; [cbn [length]; lia|]. split; [exact Hn2|]. split; [exact Hn2'|]. split; [exact HJ3|]. intros j. cbn [concat]. rewrite concat_app, of_dataset_app, <- app_assoc, Hr3. apply Hr1.
Qed.

(** Little enough is read that something is left of every shard each time the job is saved. *)
Variable w : nat -> nat.
Hypothesis Hw : forall n l, (0 < n <= M)%nat -> check n = Ok tt -> (length l <= w n * length (T n l))%nat.
Fixpoint pipe_budget (n : nat) (ks : nat -> nat) (later : list (nat * (nat -> nat))) : nat :=
  match later with [] => 0%nat | (n', ks') :: later' => (list_sum (map (fun h => (w n * ks h)%nat) (seq 0 n)) + pipe_budget n' ks' later')%nat end.
Lemma read_count {X} (it : Iter X) fuel k : forall s, (length (fst (read it fuel k s)) <= k)%nat.
Proof.
  induction k as [|k IH]; intros s; cbn [read]; [easy|]. destruct (next it fuel s) as [[a| |e|] s']; cbn [fst length]; try lia. specialize (IH s').
  destruct (read it fuel k s') as [l s'']. cbn [fst length] in *. lia.
Qed.
Lemma sum_lengths (g : nat -> list B) (b : nat -> nat) n (reads : list (list (nat * A))) hs : (0 < n <= M)%nat -> check n = Ok tt -> (forall h, (length (g h) <= b h)%nat) ->
  map g hs = map (fun xs => T n (map snd xs)) reads -> (length (concat reads) <= list_sum (map (fun h => w n * b h)%nat hs))%nat.
Proof.
  intros Hn Hck Hg. revert reads. induction hs as [|h hs IH]; intros [|xs reads] E; try easy. cbn [map] in E. injection E as E1 E2. cbn [concat map list_sum fold_right].
  rewrite app_length. specialize (IH reads E2). pose proof (Hw n (map snd xs) Hn Hck) as H1. rewrite map_length, <- E1 in H1. specialize (Hg h). unfold list_sum in IH. nia.
Qed.
Lemma pipe_ordered_ok fuel : (job_enough D N0 <= fuel)%nat -> (N1 <= fuel)%nat -> forall later n ks ss rem, counts_ok D n later -> checked n later -> has n ss rem ->
  (forall j, (j < M)%nat -> (pipe_budget n ks later < length (rem j))%nat) -> pipe_ordered D cycle_length keep truthy st fuel n ks later ss = true.
Proof.
  intros Hf Hf1. assert (HfN : (N0 <= fuel)%nat) by (unfold job_enough in Hf; lia). assert (HfM : (M < fuel)%nat) by (unfold job_enough in Hf; lia).
  induction later as [|[n' ks'] later IH]; intros n ks ss rem Hc Hck HJ Hb; cbn [pipe_ordered]; [easy|]. cbn [pipe_budget] in Hb.
  destruct Hc as (Hn & Hne & Hc). destruct Hck as (Hck & Hck'). destruct (pipe_read_ok n ss rem fuel ks Hn Hck Hf1 HJ) as (reads & rem1 & Hl & E & HJ1 & Hr1).
  destruct (job_save_ok D cycle_length truthy ls used true N0 rep crep F Hcyc eq_refl n _ rem1 ltac:(lia) ltac:(lia) (proj1 HJ1)) as (G & stt & state & d & rd & HL & Hstt & Es & Hd).
  destruct (pipe_save_ok n _ d Es) as (d' & Es' & Hsame). rewrite Es', (same_ordered d' d fuel n' Hsame).
  assert (Hn' : (0 < n' <= M)%nat) by (destruct later as [|[? ?] ?]; apply Hc).
  assert (Hb1 : forall j, (j < M)%nat -> (pipe_budget n' ks' later < length (rem1 j))%nat).
  { intros j Hj. specialize (Hb j Hj). rewrite <- (Hr1 j), app_length in Hb.
    assert (Hle : forall l : list (nat * A), (length (of_dataset j l) <= length l)%nat).
    { intros l. unfold of_dataset. rewrite map_length. induction l as [|x l IHl]; [easy|]. cbn [filter]. destruct (Nat.eqb _ _); cbn [length]; lia. }
    specialize (Hle (concat reads)). pose proof (sum_lengths _ ks n reads (seq 0 n) Hn Hck (fun h => read_count _ fuel (ks h) (ss h)) E) as Hs. lia. }
  assert (Hord : restore_ordered cycle_length fuel d n' = true).
  { unfold restore_ordered. apply forallb_forall. intros h Hh. apply in_seq in Hh.
    rewrite (C52_elastic_resize (Z.of_nat n) M stt state d) by (auto; lia).
    rewrite (host_states_stride cycle_length Hcyc (map inl G) stt n' h M); [|lia|rewrite map_length; apply HL|
      intros j x; rewrite nth_error_map; destruct (nth_error G j) eqn:E1; [|easy]; cbn; intros [= <-]; now apply Hstt].
    apply (ordered_false cycle_length keep Hcyc). rewrite <- map_stride, map_map. apply Forall_forall. intros e He. apply in_map_iff in He as ((e' & c) & <- & He). cbn [flag].
    apply In_nth_error in He as (k & Ek). rewrite nth_stride in Ek by lia. pose proof (proj2 HL _ _ _ Ek) as HG. destruct e'; [|easy].
    apply nth_error_lt in Ek. rewrite (proj1 HL) in Ek. specialize (Hb1 _ Ek). rewrite HG in Hb1. cbn in Hb1. lia. }
  rewrite Hord. cbn [andb].
  destruct (job_restore_ok D cycle_length keep truthy ls used true N0 rep crep F Hcyc Htruthy n n' fuel G stt state d rem1 rd) as (ss2 & E2 & HJ2); try assumption; try lia; [apply HJ1|].
  destruct (pipe_restore_ok n' fuel d' d ss2 Hn' ltac:(destruct later as [|[? ?] ?]; apply Hck') Hsame) as (ss2' & E2' & Ein); [|exact E2|].
  { intros h Hh. eexists. apply (C52_elastic_resize (Z.of_nat n) M stt state d); auto; lia. }
  rewrite E2'. apply (IH n' ks' ss2' rem1 Hc Hck'); [split; [now rewrite Ein|apply HJ1]|exact Hb1].
Qed.
End Job.
