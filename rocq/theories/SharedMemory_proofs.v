(** Facts about the segments for C61 to C63. *)
From Verif Require Import Base ListFacts Tree SharedMemory SharedMemorySpec.

Local Ltac spl := repeat match goal with |- _ /\ _ => split end.

Lemma lookup_in {X} n (l : list (nat * X)) x : lookup n l = Some x -> In n (map fst l).
Proof.
  unfold lookup. destruct (find _ l) as [kv|] eqn:E; [|discriminate]. intros _. apply find_some in E as (Hin & E). apply Nat.eqb_eq in E. subst.
  now apply in_map.
Qed.
Lemma lookup_some {X} n (l : list (nat * X)) : In n (map fst l) -> exists x, lookup n l = Some x.
Proof.
  intros H. unfold lookup. destruct (find _ l) as [kv|] eqn:E; [now exists (snd kv)|]. exfalso.
  apply in_map_iff in H as (kv & <- & H). pose proof (find_none _ _ E _ H) as H'. cbn in H'. now rewrite Nat.eqb_refl in H'.
Qed.
Lemma lookup_app_l {X} n (l l' : list (nat * X)) x : lookup n l = Some x -> lookup n (l ++ l') = Some x.
Proof.
  unfold lookup. intros H. induction l as [|[k y] l IH]; [discriminate|]. cbn [app find fst] in *. destruct (Nat.eqb k n); [easy|]. now apply IH.
Qed.
Lemma lookup_app_r {X} n (l l' : list (nat * X)) : ~ In n (map fst l) -> lookup n (l ++ l') = lookup n l'.
Proof.
  unfold lookup. intros H. induction l as [|[k y] l IH]; [easy|]. cbn [app find fst map] in *. destruct (Nat.eqb_spec k n); [exfalso; apply H; now left|].
  apply IH. intros Hin. apply H. now right.
Qed.

Lemma existsb_eqb n l : existsb (Nat.eqb n) l = true <-> In n l.
Proof.
  rewrite existsb_exists. split; [intros (x & Hin & E); apply Nat.eqb_eq in E; now subst|]. intros H. exists n. now rewrite Nat.eqb_refl.
Qed.
Lemma others_nil {V} (segs : list (nat * list V)) : others [] segs = segs.
Proof. unfold others. cbn [existsb negb]. induction segs as [|s segs IH]; [easy|]. cbn [filter]. now rewrite IH. Qed.
Lemma others_cons {V} n gone (segs : list (nat * list V)) :
  others gone (filter (fun s => negb (Nat.eqb (fst s) n)) segs) = others (n :: gone) segs.
Proof.
  unfold others. induction segs as [|s segs IH]; [easy|]. cbn [filter existsb]. destruct (Nat.eqb (fst s) n); cbn [negb orb filter]; now rewrite IH.
Qed.
Lemma others_ext {V} gone gone' (segs : list (nat * list V)) : (forall n, In n gone <-> In n gone') -> others gone segs = others gone' segs.
Proof.
  intros H. unfold others. apply filter_ext_in. intros s _. f_equal. apply Bool.eq_true_iff_eq. now rewrite !existsb_eqb.
Qed.
Lemma others_app {V} gone (a b : list (nat * list V)) : others gone (a ++ b) = others gone a ++ others gone b.
Proof. apply filter_app. Qed.
Lemma others_keep {V} gone (segs : list (nat * list V)) : (forall n, In n gone -> ~ In n (map fst segs)) -> others gone segs = segs.
Proof.
  intros H. unfold others. induction segs as [|s segs IH]; [easy|]. cbn [filter].
  destruct (existsb (Nat.eqb (fst s)) gone) eqn:E.
  - exfalso. apply existsb_eqb in E. apply (H _ E). now left.
  - cbn [negb]. f_equal. apply IH. intros n Hn Hin. apply (H n Hn). now right.
Qed.
Lemma others_none {V} gone (segs : list (nat * list V)) : (forall n, In n (map fst segs) -> In n gone) -> others gone segs = [].
Proof.
  intros H. unfold others. induction segs as [|s segs IH]; [easy|]. cbn [filter].
  destruct (existsb (Nat.eqb (fst s)) gone) eqn:E; cbn [negb].
  - apply IH. intros n Hn. apply H. now right.
  - exfalso. assert (In (fst s) gone) as Hin by (apply H; now left). apply existsb_eqb in Hin. congruence.
Qed.
Lemma names_others {V} gone (segs : list (nat * list V)) n : In n (map fst (others gone segs)) <-> In n (map fst segs) /\ ~ In n gone.
Proof.
  unfold others. rewrite !in_map_iff. split.
  - intros (s & <- & Hin). apply filter_In in Hin as (Hin & E). split; [eauto|]. rewrite <- existsb_eqb. destruct (existsb _ gone); easy.
  - intros ((s & <- & Hin) & Hg). exists s. split; [easy|]. apply filter_In. split; [easy|]. rewrite <- existsb_eqb in Hg. now destruct (existsb _ gone).
Qed.

Lemma free_ok {V} gone : forall m : memory V, NoDup gone -> incl gone (names m) ->
  free m gone = Ok (mkMem (m_next m) (others gone (m_segs m))).
Proof.
  induction gone as [|n gone IH]; intros m Hnd Hin; cbn [free].
  - rewrite others_nil. now destruct m.
  - apply NoDup_cons_iff in Hnd as (Hn & Hnd). unfold unlink. destruct (lookup_some n (m_segs m)) as (x & Hx); [apply Hin; now left|].
    unfold seg. rewrite Hx. cbn [bind]. rewrite IH; cbn [m_next m_segs].
    + now rewrite others_cons.
    + easy.
    + intros k Hk. unfold names. cbn [m_segs].
      assert (E : filter (fun s => negb (Nat.eqb (fst s) n)) (m_segs m) = others [n] (m_segs m)).
      { unfold others. apply filter_ext. intros s. cbn [existsb]. now rewrite orb_false_r. }
      rewrite E. apply names_others. split; [apply Hin; now right|]. intros [->|[]]. easy.
Qed.
Lemma free_fails {V} gone : forall m : memory V, ~ NoDup gone \/ ~ incl gone (names m) -> free m gone = Raise KeyError.
Proof.
  induction gone as [|n gone IH]; intros m H; cbn [free].
  - exfalso. destruct H as [H|H]; [apply H; constructor|]. apply H. intros k [].
  - unfold unlink, seg. destruct (lookup n (m_segs m)) as [x|] eqn:E; [|easy]. cbn [bind]. apply IH. cbn [m_segs names].
    assert (En : filter (fun s => negb (Nat.eqb (fst s) n)) (m_segs m) = others [n] (m_segs m)).
    { unfold others. apply filter_ext. intros s. cbn [existsb]. now rewrite orb_false_r. }
    unfold names. cbn [m_segs]. rewrite En. destruct (in_dec Nat.eq_dec n gone) as [Hn|Hn].
    + right. intros Hin. specialize (Hin n Hn). apply names_others in Hin as (_ & Hin). apply Hin. now left.
    + destruct H as [H|H].
      * left. intros Hnd. apply H. now constructor.
      * right. intros Hin. apply H. intros k [<-|Hk]; [eapply lookup_in; eassumption|]. specialize (Hin k Hk). now apply names_others in Hin as (Hin & _).
Qed.

Section Leaves.
Context {D V X : Type}.
Variable np : numpy D V.

Lemma unlink_leaves_free (ls : list (leaf D V X)) : forall m, unlink_leaves m ls = free m (metas ls).
Proof.
  induction ls as [|l ls IH]; intros m; [easy|]. cbn [unlink_leaves metas flat_map]. fold (metas ls).
  destruct l; cbn [unlink_leaf bind app]; try apply IH. cbn [free]. destruct (unlink m name); cbn [bind]; [apply IH|easy|easy].
Qed.

(** What copying the leaves does: the old segments stay, [new] are appended; later, in every memory that has these segments,
    the leaves can be opened and give the same arrays. *)
Lemma copy_leaves_ok min_size (ls : list (leaf D V X)) : (forall d, 0 < np_itemsize np d) ->
  forall m, sound m -> Forall (user_leaf m) ls ->
  exists m' new ls', copy_leaves np min_size m ls = Ok (m', ls') /\
    m_segs m' = m_segs m ++ new /\ sound m' /\ (m_next m <= m_next m')%nat /\
    Forall (fun n => m_next m <= n)%nat (map fst new) /\
    Permutation (metas ls') (owned ls ++ map fst new) /\
    forall m'' more, m_segs m'' = m_segs m' ++ more ->
      exists ls'', sequence (map (open_leaf_from_shm m'') ls') = Ok ls'' /\ Forall2 same_leaf ls ls'' /\ owned ls'' = metas ls'.
Proof.
  intros Hi. induction ls as [|l ls IH]; intros m Hs HF.
  - exists m, [], []. cbn. rewrite app_nil_r. spl; auto; try easy. intros m'' more _. exists []. now spl.
  - apply Forall_cons_iff in HF as (Hl & HF). cbn [copy_leaves].
    assert (Hstep : exists m1 l' new1, copy_leaf_to_shm np min_size m l = Ok (m1, l') /\ m_segs m1 = m_segs m ++ new1 /\ sound m1 /\
              (m_next m <= m_next m1)%nat /\ Forall (fun n => m_next m <= n)%nat (map fst new1) /\
              Permutation (metas [l']) (owned [l] ++ map fst new1) /\
              forall m'' more, m_segs m'' = m_segs m1 ++ more ->
                exists l'', open_leaf_from_shm m'' l' = Ok l'' /\ same_leaf l l'' /\ owned [l''] = metas [l']).
    { assert (Hstay : forall k, l = k -> match k with LArray _ _ | LOther _ => True | _ => False end ->
                exists m1 l' new1, Ok (m, l) = Ok (m1, l') /\ m_segs m1 = m_segs m ++ new1 /\ sound m1 /\
              (m_next m <= m_next m1)%nat /\ Forall (fun n => m_next m <= n)%nat (map fst new1) /\
              Permutation (metas [l']) (owned [l] ++ map fst new1) /\
              forall m'' more, m_segs m'' = m_segs m1 ++ more ->
                exists l'', open_leaf_from_shm m'' l' = Ok l'' /\ same_leaf l l'' /\ owned [l''] = metas [l']).
      { intros k <- Hk. exists m, l, []. rewrite app_nil_r. spl; auto; [constructor|destruct l; try easy|].
        intros m'' more _. exists l. destruct l; try easy; now spl. }
      destruct l as [contiguous a|n a|n d shape|x]; cbn [copy_leaf_to_shm]; [|..|easy|eapply Hstay; easy].
      - destruct (_ || _) eqn:E; [eapply Hstay; easy|]. apply orb_false_elim in E as (E & _). apply orb_false_elim in E as (_ & E).
        cbn [user_leaf] in Hl. destruct Hl as (Hsh & Hlen). unfold new_shared.
        assert (0 < prod (a_shape a)) by lia. specialize (Hi (a_dtype a)).
        replace (_ <=? 0) with false by nia. cbn [create bind].
        exists (mkMem (S (m_next m)) (m_segs m ++ [(m_next m, a_data a)])), (LMeta (m_next m) (a_dtype a) (a_shape a)), [(m_next m, a_data a)].
        destruct Hs as (Hnd & Hlt). spl; try easy; cbn [m_next m_segs map fst]; try lia.
        + split; unfold names; cbn [m_segs m_next]; rewrite map_app; cbn [map fst].
          * apply (Permutation_NoDup (l := m_next m :: map fst (m_segs m))); [apply Permutation_cons_append|]. constructor; [|easy].
            intros Hin. rewrite Forall_forall in Hlt. specialize (Hlt _ Hin). lia.
          * apply Forall_app. split; [eapply Forall_impl; [|exact Hlt]; cbn; intros; lia|]. repeat constructor.
        + repeat constructor.
        + intros m'' more E'. exists (LShared (m_next m) a). cbn [open_leaf_from_shm]. unfold seg. rewrite E'.
          assert (El : lookup (m_next m) ((m_segs m ++ [(m_next m, a_data a)]) ++ more) = Some (a_data a)).
          { apply lookup_app_l. rewrite lookup_app_r; [unfold lookup; cbn [find fst]; now rewrite Nat.eqb_refl|].
            intros Hin. rewrite Forall_forall in Hlt. specialize (Hlt _ Hin). lia. }
          rewrite El. replace (_ <? _) with false by lia. spl; try easy. f_equal. f_equal. destruct a as [d sh data]. cbn [a_dtype a_shape a_data] in *.
          f_equal. apply firstn_all2. lia.
      - exists m, (LMeta n (a_dtype a) (a_shape a)), []. rewrite app_nil_r. cbn [user_leaf] in Hl. destruct Hl as ((Hsh & Hlen) & Hseg).
        spl; auto; [constructor|]. intros m'' more E'. exists (LShared n a). cbn [open_leaf_from_shm]. unfold seg in *. rewrite E', (lookup_app_l _ _ _ _ Hseg).
        replace (_ <? _) with false by lia. spl; try easy. f_equal. f_equal. destruct a as [d sh data]. cbn [a_dtype a_shape a_data] in *.
        f_equal. apply firstn_all2. lia. }
    destruct Hstep as (m1 & l' & new1 & E1 & S1 & Hs1 & N1 & F1 & P1 & O1). rewrite E1. cbn [bind].
    destruct (IH m1 Hs1) as (m' & new2 & ls' & E2 & S2 & Hs2 & N2 & F2 & P2 & O2).
    { eapply Forall_impl; [|exact HF]. intros k Hk. destruct k as [|n a| |]; cbn [user_leaf] in *; try easy. destruct Hk as (Hw & Hk). split; [easy|].
      unfold seg in *. rewrite S1. now apply lookup_app_l. }
    rewrite E2. cbn [bind]. exists m', (new1 ++ new2), (l' :: ls'). spl; auto.
    + now rewrite S2, S1, app_assoc.
    + lia.
    + rewrite map_app. apply Forall_app. split; [easy|]. eapply Forall_impl; [|exact F2]. cbn. intros; lia.
    + change (metas (l' :: ls')) with (metas ([l'] ++ ls')). change (owned (l :: ls)) with (owned ([l] ++ ls)).
      unfold metas, owned in *. rewrite !flat_map_app, map_app. rewrite P1, P2. rewrite <- !app_assoc. apply Permutation_app_head.
      rewrite !app_assoc. apply Permutation_app_tail. apply Permutation_app_comm.
    + intros m'' more E'. destruct (O2 m'' more E') as (ls'' & Q1 & Q2 & Q3).
      destruct (O1 m'' (new2 ++ more)) as (l'' & R1 & R2 & R3); [now rewrite E', S2, app_assoc|].
      exists (l'' :: ls''). cbn [map sequence]. rewrite R1. cbn [bind]. rewrite Q1. cbn [bind]. spl; [easy|now constructor|].
      change (owned (l'' :: ls'')) with (owned ([l''] ++ ls'')). change (metas (l' :: ls')) with (metas ([l'] ++ ls')).
      unfold metas, owned in *. rewrite !flat_map_app. now rewrite R3, Q3.
Qed.
End Leaves.
