(** C47, C48: reading TFRecord and Parquet files. *)
From Verif Require Import Base MapDatasets Iter IterSpec ListFacts IterLaw IterBasic_proofs FileSources FileSpec.

(** * TFRecord files *)

Lemma le_bytes_length n x : length (le_bytes n x) = n.
Proof. revert x. induction n; intros x; cbn; [easy|]. now rewrite IHn. Qed.
Lemma le_number_bytes n x : 0 <= x < 256 ^ Z.of_nat n -> le_number (le_bytes n x) = x.
Proof.
  revert x. induction n as [|n IH]; intros x Hx.
  - change (256 ^ Z.of_nat 0) with 1 in Hx. cbn. lia.
  - cbn [le_bytes le_number]. rewrite IH; [lia|].
    replace (Z.of_nat (S n)) with (Z.of_nat n + 1) in Hx by lia. rewrite Z.pow_add_r in Hx by lia.
    change (256 ^ 1) with 256 in Hx. lia.
Qed.
Lemma encode_length r : valid_record r -> length (encode r) = (16 + length (r_data r))%nat.
Proof. intros (_ & H1 & H2). unfold encode. rewrite !app_length, le_bytes_length. lia. Qed.

Lemma read_at_app pre chunk rest n : Z.of_nat (length chunk) = n ->
  read_at (pre ++ chunk ++ rest) (Z.of_nat (length pre)) n = chunk.
Proof.
  intros Hn. unfold read_at. rewrite Nat2Z.id, skipn_app, skipn_all, Nat.sub_diag. cbn [app skipn].
  rewrite app_length. destruct (Z.leb_spec (Z.of_nat (length chunk + length rest)) n).
  - destruct rest; [now rewrite app_nil_r|cbn [length] in *; lia].
  - rewrite <- Hn, Nat2Z.id, firstn_app, Nat.sub_diag, firstn_all. cbn. now rewrite app_nil_r.
Qed.
Lemma read_at_short pre rest n : Z.of_nat (length rest) <= n ->
  read_at (pre ++ rest) (Z.of_nat (length pre)) n = rest.
Proof.
  intros Hn. unfold read_at. rewrite Nat2Z.id, skipn_app, skipn_all, Nat.sub_diag. cbn [app skipn].
  destruct (Z.leb_spec (Z.of_nat (length rest)) n); [easy|lia].
Qed.

Lemma tfrecord_next_record pre r rest : valid_record r ->
  tfrecord_next (pre ++ encode r ++ rest) (Z.of_nat (length pre)) =
  (Yield (r_data r), Z.of_nat (length (pre ++ encode r))).
Proof.
  intros Hv. pose proof Hv as (Hlen & H1 & H2). unfold tfrecord_next, encode.
  set (header := le_bytes 8 (Z.of_nat (length (r_data r))) ++ r_crc_length r).
  assert (Hh : length header = 12%nat) by (unfold header; rewrite app_length, le_bytes_length; lia).
  replace (pre ++ (le_bytes 8 (Z.of_nat (length (r_data r))) ++ r_crc_length r ++ r_data r ++ r_crc_data r) ++ rest)
    with (pre ++ header ++ ((r_data r ++ r_crc_data r) ++ rest)) by (unfold header; now rewrite <- !app_assoc).
  rewrite read_at_app by (rewrite Hh; reflexivity). cbv zeta. rewrite Hh.
  assert (Hh8 : le_number (firstn 8 header) = Z.of_nat (length (r_data r))).
  { unfold header. rewrite firstn_app, le_bytes_length, Nat.sub_diag, firstn_all2 by now rewrite le_bytes_length.
    cbn [firstn]. rewrite app_nil_r. apply le_number_bytes. change (256 ^ Z.of_nat 8) with (2 ^ 64). lia. }
  rewrite Hh8. assert (Hne : header <> []) by (intros E; rewrite E in Hh; discriminate).
  clearbody header. destruct header as [|b header']; [easy|].
  change (Z.of_nat 12 =? 8 + 4) with true. cbn [negb]. set (header := b :: header') in *.
  rewrite app_assoc. replace (Z.of_nat (length pre) + Z.of_nat 12) with (Z.of_nat (length (pre ++ header)))
    by (rewrite app_length, Hh; lia).
  rewrite read_at_app by (rewrite app_length; lia).
  rewrite app_length, H2. replace (Z.of_nat (length (r_data r) + 4)) with (Z.of_nat (length (r_data r)) + 4) by lia.
  rewrite Z.eqb_refl. cbn [negb]. f_equal.
  - rewrite Nat2Z.id, firstn_app, Nat.sub_diag, firstn_all. cbn. now rewrite app_nil_r.
  - rewrite !app_length, le_bytes_length, Hh. lia.
Qed.

Lemma firstn_nth_snoc {X} (l : list X) n a : nth_error l n = Some a -> firstn (S n) l = firstn n l ++ [a].
Proof. revert n. induction l; intros [|n]; cbn; try easy; [congruence|]. intros H. now rewrite <- (IHl n H). Qed.

(** The file up to record [p]. *)
Lemma tf_file_split rs p r : nth_error rs p = Some r ->
  tf_file rs = tf_file (firstn p rs) ++ encode r ++ tf_file (skipn (S p) rs).
Proof.
  intros H. rewrite <- (firstn_skipn p rs) at 1. rewrite (skipn_nth_cons _ _ _ H).
  unfold tf_file. rewrite map_app, concat_app. reflexivity.
Qed.
Lemma tf_file_snoc rs p r : nth_error rs p = Some r ->
  tf_file (firstn p rs) ++ encode r = tf_file (firstn (S p) rs).
Proof.
  intros H. rewrite (firstn_nth_snoc _ _ _ H). unfold tf_file. rewrite map_app, concat_app. cbn. now rewrite app_nil_r.
Qed.

Lemma lawful_tfrecord rs : Forall valid_record rs -> lawful (tfrecord_it (tf_file rs)) (map r_data rs) true true true.
Proof.
  intros Hv. exists 0%nat.
  exists (fun off p => (p <= length rs)%nat /\ off = Z.of_nat (length (tf_file (firstn p rs)))).
  exists (fun off p => (p <= length rs)%nat /\ off = Z.of_nat (length (tf_file (firstn p rs)))).
  assert (Hset : forall off p, off = Z.of_nat (length (tf_file (firstn p rs))) -> (off <? 0) = false).
  { intros off p ->. destruct (Z.ltb_spec (Z.of_nat (length (tf_file (firstn p rs)))) 0); [lia|easy]. }
  split; cbn [tfrecord_it init next get_state set_state jsonck ist ick].
  - split; [lia|]. reflexivity.
  - intros s p [H _]. now rewrite map_length.
  - intros fuel s p a _ [Hp ->] Ha. rewrite nth_error_map in Ha.
    destruct (nth_error rs p) as [r|] eqn:Er; [|discriminate]. cbn in Ha. injection Ha as <-.
    rewrite (tf_file_split _ _ _ Er), tfrecord_next_record.
    + eexists. split; [reflexivity|]. split; [apply nth_lt in Er; lia|]. now rewrite (tf_file_snoc _ _ _ Er).
    + eapply Forall_forall; [exact Hv|]. eapply nth_error_In; eassumption.
  - intros fuel s _ _ [_ ->]. rewrite map_length, firstn_all. unfold tfrecord_next.
    pose proof (read_at_short (tf_file rs) [] 12 ltac:(cbn; lia)) as H. rewrite app_nil_r in H.
    change (8 + 4) with 12. rewrite H. cbn [length]. eexists. split; [reflexivity|].
    split; lia.
  - easy.
  - easy.
  - intros fuel s p _ _ _. exists 0. split; [reflexivity|]. split; [lia|reflexivity].
  - intros fuel c p _ [Hp Hs] _. rewrite (Hset c p Hs). eauto.
  - intros fuel s q c p _ _ _ [Hp Hs] _. rewrite (Hset c p Hs). eauto.
Qed.

(** Reading a well-formed file gives exactly its records, and every history of
    checkpoints (also through JSON, also into used iterators) continues at the record after
    the checkpoint. *)
Theorem C47_tfrecord rs : Forall valid_record rs ->
  elements (tfrecord_it (tf_file rs)) (map r_data rs) /\
  checkpointable (tfrecord_it (tf_file rs)) (map r_data rs) true true true.
Proof.
  intros Hv. pose proof (lawful_tfrecord rs Hv) as L. split; [eapply lawful_elements|eapply lawful_checkpointable]; eassumption.
Qed.


(** A file that ends inside a record: the complete records are returned, then ValueError
    is raised; a short record is never returned. *)
Theorem C47_truncated rs r keep fuel : Forall valid_record rs -> valid_record r ->
  (0 < keep < length (encode r))%nat ->
  drain (tfrecord_it (tf_file rs ++ firstn keep (encode r))) fuel (S (length rs)) 0 =
  (map r_data rs, Fail ValueError).
Proof.
  intros Hv Hr Hk. set (file := tf_file rs ++ firstn keep (encode r)).
  assert (Hlast : exists off, tfrecord_next file (Z.of_nat (length (tf_file rs))) = (Fail ValueError, off)).
  { unfold tfrecord_next, file. pose proof Hr as (Hlen & H1 & H2). rewrite (encode_length r Hr) in Hk.
    assert (Hkl : length (firstn keep (encode r)) = keep).
    { rewrite firstn_length, (encode_length r Hr). lia. }
    set (header := le_bytes 8 (Z.of_nat (length (r_data r))) ++ r_crc_length r).
    assert (Hh : length header = 12%nat) by (unfold header; rewrite app_length, le_bytes_length; lia).
    assert (Henc : encode r = header ++ (r_data r ++ r_crc_data r)) by (unfold encode, header; now rewrite <- app_assoc).
    destruct (Nat.lt_ge_cases keep 12).
    - rewrite read_at_short by lia. rewrite Hkl.
      destruct (firstn keep (encode r)) as [|b buf] eqn:E; [cbn in Hkl; lia|].
      destruct (Z.eqb_spec (Z.of_nat keep) (8 + 4)); [lia|]. cbn [negb]. eauto.
    - assert (Hsp : firstn keep (encode r) = header ++ firstn (keep - 12) (r_data r ++ r_crc_data r)).
      { rewrite Henc, firstn_app, Hh. f_equal. apply firstn_all2. lia. }
      rewrite Hsp, read_at_app by (rewrite Hh; reflexivity). rewrite Hh.
      assert (Hh8 : le_number (firstn 8 header) = Z.of_nat (length (r_data r))).
      { unfold header. rewrite firstn_app, le_bytes_length, Nat.sub_diag, firstn_all2 by now rewrite le_bytes_length.
        cbn [firstn]. rewrite app_nil_r. apply le_number_bytes. change (256 ^ Z.of_nat 8) with (2 ^ 64). lia. }
      rewrite Hh8. assert (Hne : header <> []) by (intros E; rewrite E in Hh; discriminate).
      clearbody header. destruct header as [|b header']; [easy|].
      change (Z.of_nat 12 =? 8 + 4) with true. cbn [negb]. set (header := b :: header') in *.
      rewrite app_assoc. replace (Z.of_nat (length (tf_file rs)) + Z.of_nat 12) with (Z.of_nat (length (tf_file rs ++ header)))
        by (rewrite app_length, Hh; lia).
      assert (Hl : (length (firstn (keep - 12) (r_data r ++ r_crc_data r)) < length (r_data r) + 4)%nat).
      { rewrite firstn_length. lia. }
      rewrite read_at_short by lia.
      match goal with |- context [negb (?a =? ?b)] => destruct (Z.eqb_spec a b) end; [lia|]. cbn [negb]. eauto. }
  assert (Hd : forall n p, (p + n = length rs)%nat ->
    drain (tfrecord_it file) fuel (S n) (Z.of_nat (length (tf_file (firstn p rs)))) = (map r_data (skipn p rs), Fail ValueError)).
  { induction n as [|n IH]; intros p Hp.
    - assert (p = length rs) as -> by lia. rewrite firstn_all, skipn_all. cbn [drain tfrecord_it next].
      destruct Hlast as (off & ->). reflexivity.
    - destruct (nth_error rs p) as [r'|] eqn:Er; [|apply nth_error_None in Er; lia].
      change (drain (tfrecord_it file) fuel (S (S n)) (Z.of_nat (length (tf_file (firstn p rs))))) with
        (match tfrecord_next file (Z.of_nat (length (tf_file (firstn p rs)))) with
         | (Yield a, s') => let (l, o) := drain (tfrecord_it file) fuel (S n) s' in (a :: l, o)
         | (o, _) => ([], o) end).
      unfold file at 1. rewrite (tf_file_split _ _ _ Er), <- !app_assoc, tfrecord_next_record.
      2:{ eapply Forall_forall; [exact Hv|]. eapply nth_error_In; eassumption. }
      rewrite (tf_file_snoc _ _ _ Er), IH by lia. now rewrite (skipn_nth_cons _ _ _ Er). }
  apply (Hd (length rs) 0%nat). reflexivity.
Qed.

Example C47_example :
  let rs := [mkRecord [104; 105] [1; 2; 3; 4] [5; 6; 7; 8]; mkRecord [] [9; 9; 9; 9] [9; 9; 9; 9]; mkRecord [255] [0; 0; 0; 0] [0; 0; 0; 0]] in
  Forall valid_record rs /\ drain (tfrecord_it (tf_file rs)) 1 4 0 = ([[104; 105]; []; [255]], Stop) /\
  drain (tfrecord_it (firstn 40 (tf_file rs))) 1 4 0 = ([[104; 105]; []], Fail ValueError).
Proof. cbv zeta. split; [|split; reflexivity]. repeat constructor; cbn; lia. Qed.

(** * Parquet files *)

Lemma nth_error_concat_skip {A} (groups : list (list A)) g rows i :
  nth_error groups g = Some rows -> (i <= length rows)%nat ->
  nth_error (concat groups) (length (concat (firstn g groups)) + i) =
  match nth_error rows i with Some a => Some a | None => nth_error (concat (skipn (S g) groups)) 0 end.
Proof.
  intros Hg Hi. rewrite <- (firstn_skipn g groups) at 1. rewrite (skipn_nth_cons _ _ _ Hg).
  rewrite concat_app. cbn [concat]. rewrite nth_error_app2 by lia.
  replace (length (concat (firstn g groups)) + i - length (concat (firstn g groups)))%nat with i by lia.
  destruct (nth_error rows i) as [a|] eqn:E.
  - rewrite nth_error_app1; [easy|]. apply nth_lt in E. lia.
  - apply nth_error_None in E. rewrite nth_error_app2 by lia. f_equal. lia.
Qed.

Definition pq_rep {A} (groups : list (list A)) (g i : Z) (p : nat) : Prop :=
  exists rows, 0 <= g /\ nth_error groups (Z.to_nat g) = Some rows /\ 0 <= i <= Z.of_nat (length rows) /\
    p = (length (concat (firstn (Z.to_nat g) groups)) + Z.to_nat i)%nat.

Lemma pq_rep_read {A} (groups : list (list A)) g i p : pq_rep groups g i p ->
  exists rows, read_row_group groups g = Ok rows /\ nth_error groups (Z.to_nat g) = Some rows.
Proof.
  intros (rows & Hg & E & _). exists rows. split; [|easy]. unfold read_row_group.
  destruct (Z.ltb_spec g 0); [lia|]. now rewrite E.
Qed.
Lemma concat_firstn_S {A} (groups : list (list A)) g rows : nth_error groups g = Some rows ->
  length (concat (firstn (S g) groups)) = (length (concat (firstn g groups)) + length rows)%nat.
Proof.
  intros H. rewrite (firstn_nth_snoc _ _ _ H), concat_app, app_length. cbn. now rewrite app_nil_r.
Qed.
Lemma concat_firstn_le {A} (groups : list (list A)) g : (length (concat (firstn g groups)) <= length (concat groups))%nat.
Proof. rewrite <- (firstn_skipn g groups) at 2. rewrite concat_app, app_length. lia. Qed.
Lemma pq_rep_le {A} (groups : list (list A)) g i p : pq_rep groups g i p -> (p <= length (concat groups))%nat.
Proof.
  intros (rows & Hg & E & Hi & ->). pose proof (concat_firstn_S _ _ _ E). pose proof (concat_firstn_le groups (S (Z.to_nat g))). lia.
Qed.

Lemma parquet_step {A} (groups : list (list A)) : forall m fuel s p rows,
  (m = length groups - Z.to_nat (pq_group s))%nat -> (m < fuel)%nat ->
  pq_rep groups (pq_group s) (pq_index s) p -> nth_error groups (Z.to_nat (pq_group s)) = Some rows -> pq_table s = rows ->
  (forall a, nth_error (concat groups) p = Some a ->
     exists s', parquet_next groups fuel s = (Yield a, s') /\ pq_rep groups (pq_group s') (pq_index s') (S p) /\
                nth_error groups (Z.to_nat (pq_group s')) = Some (pq_table s')) /\
  (p = length (concat groups) ->
     exists s', parquet_next groups fuel s = (Stop, s') /\ pq_rep groups (pq_group s') (pq_index s') p /\
                nth_error groups (Z.to_nat (pq_group s')) = Some (pq_table s')).
Proof.
  induction m as [|m IH]; intros fuel [g i t] p rows Hm Hf Hrep Hrows Ht; cbn [pq_group pq_index pq_table] in *;
    [pose proof (nth_lt _ _ _ Hrows); lia|].
  destruct fuel as [|fuel]; [lia|]. cbn [parquet_next pq_group pq_index pq_table]. subst t.
  destruct Hrep as (rows' & Hg & E & Hi & Hp). rewrite Hrows in E. injection E as <-.
  pose proof (nth_lt _ _ _ Hrows) as Hlt.
  destruct (Z.geb_spec i (Z.of_nat (length rows))) as [Hge|Hlt'].
  - destruct (Z.ltb_spec g (Z.of_nat (length groups) - 1)) as [Hmore|Hlast].
    + destruct (nth_error groups (Z.to_nat (g + 1))) as [rows1|] eqn:E1; [|apply nth_error_None in E1; lia].
      unfold read_row_group. destruct (Z.ltb_spec (g + 1) 0); [lia|]. rewrite E1.
      replace (Z.to_nat (g + 1)) with (S (Z.to_nat g)) in E1 by lia.
      apply (IH fuel (mkPq (g + 1) 0 rows1) p rows1); cbn [pq_group pq_index pq_table]; try lia.
      * exists rows1. replace (Z.to_nat (g + 1)) with (S (Z.to_nat g)) by lia.
        rewrite (concat_firstn_S _ _ _ Hrows). split; [lia|]. split; [easy|]. split; [lia|]. change (Z.to_nat 0) with O. lia.
      * now replace (Z.to_nat (g + 1)) with (S (Z.to_nat g)) by lia.
      * easy.
    + assert (Hall : length (concat groups) = p).
      { pose proof (concat_firstn_S _ _ _ Hrows) as H. rewrite firstn_all2 in H by lia. lia. }
      split.
      * intros a Ha. apply nth_lt in Ha. lia.
      * intros _. eexists. split; [reflexivity|]. cbn. split; [|easy]. exists rows. easy.
  - destruct (nth_error rows (Z.to_nat i)) as [a|] eqn:Ea; [|apply nth_error_None in Ea; lia]. split.
    + intros a' Ha'. eexists. split; [f_equal|].
      * rewrite Hp, (nth_error_concat_skip _ _ _ _ Hrows), Ea in Ha' by lia. congruence.
      * cbn. split; [|easy]. exists rows. split; [easy|]. split; [easy|]. split; lia.
    + intros Hend. pose proof (concat_firstn_S _ _ _ Hrows). pose proof (concat_firstn_le groups (S (Z.to_nat g))). lia.
Qed.

Lemma lawful_parquet {A} (groups : list (list A)) it :
  parquet_it groups = Ok it -> lawful it (concat groups) true true true.
Proof.
  intros Hit. unfold parquet_it in Hit. apply bind_Ok_iff in Hit as (rows & Hr & Hit).
  match type of Hit with Ok ?X = _ => assert (it = X) as -> by congruence end.
  unfold read_row_group in Hr. cbn [Z.ltb Z.compare] in Hr.
  change (Z.to_nat 0) with O in Hr. destruct (nth_error groups 0) as [rows'|] eqn:E0; [|discriminate]. injection Hr as ->.
  exists (S (length groups)).
  exists (fun s p => pq_rep groups (pq_group s) (pq_index s) p /\ nth_error groups (Z.to_nat (pq_group s)) = Some (pq_table s)).
  exists (fun c p => pq_rep groups (fst c) (snd c) p).
  assert (Hset : forall g i p, pq_rep groups g i p -> exists s', (let! rows := read_row_group groups g in Ok (mkPq g i rows)) = Ok s' /\
    pq_rep groups (pq_group s') (pq_index s') p /\ nth_error groups (Z.to_nat (pq_group s')) = Some (pq_table s')).
  { intros g i p H. destruct (pq_rep_read _ _ _ _ H) as (rows1 & -> & E1). cbn. eexists. split; [reflexivity|]. now cbn. }
  split; cbn [init next get_state set_state jsonck ist ick fst snd].
  - cbn [pq_group pq_index pq_table]. change (Z.to_nat 0) with O. split; [|easy]. exists rows. change (Z.to_nat 0) with O.
    split; [lia|]. split; [easy|]. split; [lia|]. easy.
  - intros s p [H _]. now apply pq_rep_le in H.
  - intros fuel s p a Hf [H1 H2] Ha. apply (proj1 (parquet_step groups _ fuel s p _ eq_refl ltac:(lia) H1 H2 eq_refl) a Ha).
  - intros fuel s Hf _ [H1 H2]. apply (proj2 (parquet_step groups _ fuel s _ _ eq_refl ltac:(lia) H1 H2 eq_refl) eq_refl).
  - intros s p [H _]. exact H.
  - intros c p _ H. exact H.
  - intros fuel s p _ [H _] _. apply Hset. cbn [pq_group pq_index]. exists rows. change (Z.to_nat 0) with O.
    split; [lia|]. split; [easy|]. split; [lia|]. easy.
  - intros fuel [g i] p _ H _. apply Hset. exact H.
  - intros fuel s q [g i] p _ _ _ H _. apply Hset. exact H.
Qed.

(** All rows of all row groups in order (empty row groups included), and every history
    of checkpoints continues at the row after the checkpoint. *)
Theorem C48_parquet {A} (groups : list (list A)) it : parquet_it groups = Ok it ->
  elements it (concat groups) /\ checkpointable it (concat groups) true true true.
Proof.
  intros H. pose proof (lawful_parquet groups it H) as L.
  split; [eapply lawful_elements|eapply lawful_checkpointable]; eassumption.
Qed.
(** A file can be opened if and only if it has a row group. *)
Theorem C48_open {A} (groups : list (list A)) : (exists it, parquet_it groups = Ok it) <-> groups <> [].
Proof.
  unfold parquet_it, read_row_group. cbn [Z.ltb Z.compare]. change (Z.to_nat 0) with O.
  destruct groups; cbn; split; try (intros (? & [=])); try easy. eauto.
Qed.
Example C48_example : exists it, parquet_it [[]; [1; 2]; []; []; [3]] = Ok it /\
  drain it 9 4 (init it) = ([1; 2; 3], Stop) /\
  run it 9 [ONext; ONext; OSave; ONext; OLoad 0 true; ONext; ONext] (init it) [] =
    [Got (Yield 1); Got (Yield 2); Saved; Got (Yield 3); Loaded; Got (Yield 3); Got Stop].
Proof. eexists. split; [reflexivity|]. split; reflexivity. Qed.
