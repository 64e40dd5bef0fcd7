(** Proofs for LoaderFlat.v. *)
From Verif Require Import Base Spec ListFacts Sharding MapDatasets Samplers Iter IterSpec IterLaw IterBasic_proofs IterFlat_proofs Interleave InterleaveSpec Interleave_proofs
  Prop_Interleave Scheduled Scheduled_proofs Multiprocess MultiprocessSpec Multiprocess_proofs DataLoader DataLoaderSpec DataLoader_proofs Operations Operations_proofs
  Prop_DataLoader LoaderFlat LoaderFlatSpec.

Local Ltac spl := repeat match goal with |- _ /\ _ => split end.

(** ** The iterators *)
Lemma apply_flat_lawful {G A} (op : flat_op G A) p l l' used : lawful p (map Some l) true used true -> flat_load1 op l = Ok l' ->
  exists q, apply_flat op p = Ok q /\ lawful q (map Some l') true false true.
Proof.
  intros HL E. destruct op as [op|m f]; cbn [flat_load1 apply_flat] in *.
  - destruct (transform_lawful op p l l' used true HL E) as (q & Eq & L). exists q. split; [exact Eq|]. now apply (lawful_flags q _ true used true).
  - apply bind_ok' in E as (dss & E & H). injection H as <-. apply sequence_ok in E. rewrite Forall2_map_l in E.
    eexists. split; [reflexivity|].
    set (g e := match on_split m f e with Ok rs => rs | _ => [] end : list (option (lrec G A))).
    replace (map Some (concat (map (fun '(r, ds) => split_record m r ds) (combine l dss)))) with (flat_map g (map Some l)).
    + eapply lawful_flat_map; [|exact HL]. clear - E. apply Forall_map. induction E as [|r ds l dss H E IH]; constructor; [|exact IH].
      unfold g. cbn [on_split]. unfold flat_map_adapter. rewrite H. reflexivity.
    + clear - E. induction E as [|r ds l dss H E IH]; [reflexivity|]. cbn [map flat_map combine concat]. rewrite map_app. f_equal; [|exact IH].
      unfold g. cbn [on_split]. unfold flat_map_adapter. rewrite H. reflexivity.
Qed.
Lemma apply_all_lawful {G A} (ops : list (flat_op G A)) : forall p l l', lawful p (map Some l) true false true -> flat_load ops l = Ok l' ->
  exists q, apply_all ops p = Ok q /\ lawful q (map Some l') true false true.
Proof.
  induction ops as [|op ops IH]; intros p l l' HL E; cbn [flat_load apply_all] in *.
  - injection E as <-. eauto.
  - apply bind_ok' in E as (l1 & E1 & E). destruct (apply_flat_lawful op p l l1 false HL E1) as (q & -> & L). cbn [bind]. now apply (IH q l1).
Qed.
Lemma flat_worker_lawful {G A} (ds : MapDs (lrec G A)) nt pb ops rs W i l : (i < W)%nat -> 0 <= mlen ds ->
  Forall2 (fun k r => mget ds k = Ok (Some r)) (zrange 0 (Z.to_nat (mlen ds))) rs -> flat_load ops (stride W i rs) = Ok l ->
  exists it, flat_worker W i ds nt pb ops = Ok it /\ lawful it (map rec_data l) true false true.
Proof.
  intros Hi Hn Hrs E.
  assert (Ho : outcomes (TSource ds false nt pb) (map (fun r => Some (Some r)) rs)).
  { unfold outcomes. cbn [tree_len]. rewrite Forall2_map_r. eapply Forall2_weaken; [|exact Hrs]. intros k r H. cbn [outcome]. rewrite H. reflexivity. }
  destruct (worker_lawful (TSource ds false nt pb) _ W i Hi Hn eq_refl Ho (or_introl eq_refl)) as (p & Ep & Lp).
  assert (Hem : emitted (stride W i (map (fun r => Some (Some r)) rs)) = map Some (stride W i rs)).
  { rewrite <- map_stride. rewrite <- (map_map Some Some). apply kept_all. }
  rewrite Hem in Lp. unfold worker_iter in Ep. apply bind_ok' in Ep as (t' & Et & Ep).
  assert (Hs : exists ds', (if Nat.eqb W 1 then Ok ds else slice_ds (Some (Z.of_nat i)) None (Some (Z.of_nat W)) ds) = Ok ds' /\ t' = TSource ds' false nt pb).
  { destruct (Nat.eqb W 1); [injection Et as <-; eauto|]. cbn [slice_tree] in Et. apply bind_ok' in Et as (ds' & E' & Et). injection Et as <-. eauto. }
  destruct Hs as (ds' & Es & ->). cbn [tree_iter] in Ep. injection Ep as <-.
  destruct (apply_all_lawful ops _ _ _ (lawful_flags _ _ _ _ _ false true Lp ltac:(easy) ltac:(easy)) E) as (q & Eq & Lq).
  unfold flat_worker. rewrite Es. cbn [bind]. rewrite Eq. cbn [bind]. eexists. split; [reflexivity|].
  apply (lawful_map _ _ (map Some l)); [|exact Lq]. rewrite Forall2_map_l, Forall2_map_r. clear. induction l; constructor; auto.
Qed.
Lemma flat_workers_lawful {G A} (ds : MapDs (lrec G A)) nt pb ops rs W q ls : 0 <= mlen ds ->
  Forall2 (fun k r => mget ds k = Ok (Some r)) (zrange 0 (Z.to_nat (mlen ds))) rs -> (forall i, In i q -> (i < W)%nat) ->
  Forall2 (fun i l => flat_load ops (stride W i rs) = Ok l) q ls ->
  exists ps, sequence (map (fun i => flat_worker W i ds nt pb ops) q) = Ok ps /\ length ps = length q /\
    Forall2 (fun p l => lawful p (map rec_data l) true false true) ps ls.
Proof.
  intros Hn Hrs Hq H. induction H as [|i l q ls E H IH].
  - exists []. cbn. spl; [easy|easy|constructor].
  - destruct IH as (ps & Es & El & F); [intros; apply Hq; now right|].
    destruct (flat_worker_lawful ds nt pb ops rs W i l (Hq i (or_introl eq_refl)) Hn Hrs E) as (p & Ep & L).
    exists (p :: ps). cbn [map sequence]. rewrite Ep. cbn [bind]. rewrite Es. spl; [easy|cbn; lia|now constructor].
Qed.
Lemma flat_shards_renewable {A} bs (r : running) (ps : list (Iter A)) ls : (1 <= bs)%nat -> Forall2 (fun p l => lawful p l true false true) ps ls -> forall k,
  Forall2 (fun p l => renewable p l true false true)
    (map (fun ip => thread_prefetch_it bs false (r_thread r (fst ip)) (process_prefetch_it bs false (r_process r (fst ip)) (snd ip))) (combine (seq k (length ps)) ps)) ls.
Proof.
  intros Hb F. induction F as [|p l ps ls L F IH]; intros k; [constructor|]. cbn [length seq combine map]. constructor; [|apply IH].
  cbn [fst snd]. apply thread_prefetch_renewable; [easy|]. apply process_prefetch_renewable; [exact Hb|]. now apply lawful_renewable.
Qed.

(** ** Record by record *)
Lemma sequence_app {X} (a b : list (res X)) : sequence (a ++ b) = let! x := sequence a in let! y := sequence b in Ok (x ++ y).
Proof.
  induction a as [|r a IH]; cbn [app sequence bind]; [now destruct (sequence b)|]. destruct r; cbn [bind]; try easy.
  rewrite IH. destruct (sequence a); cbn [bind]; try easy. now destruct (sequence b).
Qed.
Lemma sequence_length {X} (l : list (res X)) l' : sequence l = Ok l' -> length l' = length l.
Proof. intros H. apply sequence_ok in H. symmetry. now apply (Forall2_length _ _ _ H). Qed.
Lemma combine_app' {X Y} (a a' : list X) (b b' : list Y) : length a = length b -> combine (a ++ a') (b ++ b') = combine a b ++ combine a' b'.
Proof. revert b. induction a as [|x a IH]; intros [|y b] E; cbn in *; try easy. f_equal. apply IH. lia. Qed.
Lemma flat_load1_cons {G A} (op : flat_op G A) r l : record_by_record op = true ->
  flat_load1 op (r :: l) = let! x := flat_load1 op [r] in let! y := flat_load1 op l in Ok (x ++ y).
Proof.
  intros Hr. destruct op as [[f|f|f|n d fn]|m f]; try discriminate; cbn [flat_load1 load1 map sequence].
  - destruct (f (rec_data r)); cbn [bind]; try easy; now destruct (sequence _).
  - destruct (f (rec_data r) (rec_gen r)); cbn [bind]; try easy; now destruct (sequence _).
  - destruct (f (rec_data r)) as [b| |]; cbn [bind]; try easy. destruct (sequence _); cbn [bind]; try easy.
    cbn [combine filter map fst snd]. now destruct b.
  - destruct (f (rec_data r)) as [ds| |]; cbn [bind]; try easy. destruct (sequence _); cbn [bind]; try easy.
    cbn [combine map concat]. now rewrite app_nil_r.
Qed.
Lemma flat_load1_nil {G A} (op : flat_op G A) : record_by_record op = true -> flat_load1 op [] = Ok [].
Proof. destruct op as [[]|]; try discriminate; reflexivity. Qed.
Lemma flat_load1_app {G A} (op : flat_op G A) a b : record_by_record op = true ->
  flat_load1 op (a ++ b) = let! x := flat_load1 op a in let! y := flat_load1 op b in Ok (x ++ y).
Proof.
  intros Hr. induction a as [|r a IH]; cbn [app].
  - rewrite (flat_load1_nil op Hr). cbn [bind app]. now destruct (flat_load1 op b).
  - rewrite flat_load1_cons, IH by exact Hr. rewrite (flat_load1_cons op r a Hr). destruct (flat_load1 op [r]); cbn [bind]; try easy.
    destruct (flat_load1 op a); cbn [bind]; try easy. destruct (flat_load1 op b); cbn [bind]; try easy. now rewrite app_assoc.
Qed.
Lemma flat_load_app {G A} (ops : list (flat_op G A)) : forallb record_by_record ops = true -> forall a b x y,
  flat_load ops a = Ok x -> flat_load ops b = Ok y -> flat_load ops (a ++ b) = Ok (x ++ y).
Proof.
  induction ops as [|op ops IH]; intros Hr a b x y; cbn [flat_load]; [intros [= <-] [= <-]; easy|].
  cbn [forallb] in Hr. apply andb_prop in Hr as (H1 & H2). intros Ea Eb. apply bind_ok' in Ea as (a1 & Ea1 & Ea). apply bind_ok' in Eb as (b1 & Eb1 & Eb).
  rewrite flat_load1_app, Ea1, Eb1 by exact H1. cbn [bind]. now apply IH.
Qed.
Lemma flat_load_split {G A} (ops : list (flat_op G A)) : forallb record_by_record ops = true -> forall a b z,
  flat_load ops (a ++ b) = Ok z -> exists x y, flat_load ops a = Ok x /\ flat_load ops b = Ok y /\ z = x ++ y.
Proof.
  induction ops as [|op ops IH]; intros Hr a b z; cbn [flat_load]; [intros [= <-]; eauto|].
  cbn [forallb] in Hr. apply andb_prop in Hr as (H1 & H2). intros E. rewrite flat_load1_app in E by exact H1.
  apply bind_ok' in E as (z1 & E1 & E). apply bind_ok' in E1 as (a1 & -> & E1). apply bind_ok' in E1 as (b1 & -> & E1). injection E1 as <-.
  cbn [bind]. now apply IH.
Qed.
Lemma flat_load_nil {G A} (ops : list (flat_op G A)) : forallb record_by_record ops = true -> flat_load ops [] = Ok [].
Proof.
  induction ops as [|op ops IH]; intros Hr; [reflexivity|]. cbn [forallb] in Hr. apply andb_prop in Hr as (H1 & H2). cbn [flat_load].
  rewrite flat_load1_nil by exact H1. now apply IH.
Qed.
Lemma flat_load_records {G A} (ops : list (flat_op G A)) : forallb record_by_record ops = true -> forall rs l,
  flat_load ops rs = Ok l -> exists xs, Forall2 (fun r x => flat_load ops [r] = Ok x) rs xs /\ l = concat xs.
Proof.
  intros Hr. induction rs as [|r rs IH]; intros l E.
  - rewrite flat_load_nil in E by exact Hr. injection E as <-. exists []. split; [constructor|easy].
  - destruct (flat_load_split ops Hr [r] rs l E) as (x & y & Ex & Ey & ->). destruct (IH y Ey) as (xs & F & ->).
    exists (x :: xs). split; [now constructor|easy].
Qed.
Lemma flat_load_concat {G A} (ops : list (flat_op G A)) : forallb record_by_record ops = true -> forall rs xs,
  Forall2 (fun r x => flat_load ops [r] = Ok x) rs xs -> flat_load ops rs = Ok (concat xs).
Proof.
  intros Hr rs xs F. induction F as [|r x rs xs E F IH]; [now apply flat_load_nil|]. cbn [concat]. now apply (flat_load_app ops Hr [r]).
Qed.
Lemma strides_permute {X} W (ls : list (list X)) : (1 <= W)%nat ->
  Permutation (concat (map (fun i => concat (stride W i ls)) (seq 0 W))) (concat ls).
Proof.
  intros HW. pose proof (proj1 (C34_each_dataset_complete W _ _ (interleaved_strides W ls HW))) as Hp. rewrite turns_snd in Hp.
  assert (E : concat (map (fun i => concat (stride W i ls)) (seq 0 W)) = concat (concat (strides W ls))).
  { unfold strides. induction (seq 0 W) as [|i l IH]; [easy|]. cbn [map concat]. now rewrite concat_app, IH. }
  rewrite E. clear E. symmetry. induction Hp as [|x l l' _ IH|x y l|l l' l'' _ IH1 _ IH2]; cbn [concat]; [easy|now apply Permutation_app_head| |now transitivity (concat l')].
  rewrite !app_assoc. apply Permutation_app_tail, Permutation_app_comm.
Qed.
