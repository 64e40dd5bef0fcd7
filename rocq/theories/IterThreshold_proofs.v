(** The check on the fraction of removed elements. *)
From Verif Require Import Base MapDatasets Iter IterSpec ListFacts IterLaw IterBasic_proofs IterSource_proofs.

Section Threshold.
  Context {A : Type} (thr : option (Z * Z)) (g : A -> bool).

  Fixpoint outcome (c : checker) (rest : list A) : list A * out A :=
    match rest with
    | [] => ([], Stop)
    | v :: rest' =>
        match check thr c (g v) with
        | (_, Some e) => ([], Fail e)
        | (c', None) => if g v then let (l, o) := outcome c' rest' in (v :: l, o) else outcome c' rest'
        end
    end.

  Lemma filter_drain f (p : Iter A) l (used json : bool) : (forall a, In a l -> f a = Ok (g a)) ->
    lawful p l true used json ->
    exists N, forall fuel, (N <= fuel)%nat ->
      drain (filter_it thr f p) fuel (S (length l)) (init p, checker0) = outcome checker0 l.
  Proof.
    intros Hf (N & rep & crep & L). exists (N + length l + 1)%nat. intros fuel Hfuel.
    assert (G : forall rest n fuel' k s c, skipn n l = rest -> (n + length rest = length l)%nat ->
       (N + length rest + 1 <= fuel')%nat -> (length rest <= k)%nat -> rep s n ->
       match filter_next thr f p fuel' (s, c) with
       | (Yield a, s') => let (l, o) := drain (filter_it thr f p) fuel k s' in (a :: l, o)
       | (o, _) => ([], o)
       end = outcome c rest).
    { induction rest as [|v rest IH]; intros n fuel' k s c Hn Hl Hfu Hk Hr.
      - destruct fuel' as [|fuel']; [lia|]. cbn [filter_next fst snd].
        assert (n = length l) as -> by (cbn in Hl; lia).
        destruct (law_stop L fuel' s ltac:(cbn in Hfu; lia) eq_refl Hr) as (s' & -> & _). easy.
      - destruct fuel' as [|fuel']; [lia|]. cbn [filter_next fst snd length] in *.
        assert (Hv : nth_error l n = Some v).
        { rewrite <- (firstn_skipn n l), Hn, nth_error_app2; rewrite firstn_length; [|lia].
          now replace (n - Nat.min n (length l))%nat with 0%nat by lia. }
        destruct (law_next L fuel' s n v ltac:(lia) Hr Hv) as (s' & -> & Hr'). cbn [bindn].
        rewrite (Hf v (nth_error_In _ _ Hv)). cbn [outcome].
        assert (Hn' : skipn (S n) l = rest) by (rewrite (skipn_nth_cons _ _ _ Hv) in Hn; congruence).
        destruct (check thr c (g v)) as [c' [e|]]; [easy|].
        destruct (g v) eqn:Gv.
        + destruct k as [|k]; [lia|].
          specialize (IH (S n) fuel k s' c' Hn' ltac:(lia) ltac:(lia) ltac:(lia) Hr').
          rewrite <- IH. cbn [drain next filter_it].
          destruct (filter_next thr f p fuel (s', c')) as [[a| |e|] st']; reflexivity.
        + apply (IH (S n)); auto; lia. }
    cbn [drain next filter_it]. apply (G l 0%nat fuel (length l) (init p) checker0); auto; try lia. apply (law_init L).
  Qed.

  Definition W : nat := Z.to_nat check_filtered_interval.
  Lemma W_pos : (1 <= W)%nat. Proof. unfold W, check_filtered_interval. lia. Qed.
  Lemma W_Z : Z.of_nat W = check_filtered_interval. Proof. unfold W, check_filtered_interval. lia. Qed.
  Opaque W check_filtered_interval.

  Definition tally (c : checker) (w : list A) : checker :=
    mkChecker (passed c + Z.of_nat (length (filter g w)))
              (skipped c + Z.of_nat (length (filter (fun a => negb (g a)) w))).
  Lemma tally_total c w : passed (tally c w) + skipped (tally c w) = passed c + skipped c + Z.of_nat (length w).
  Proof. unfold tally. cbn [passed skipped]. induction w as [|v w IH]; cbn; [lia|]. destruct (g v); cbn in *; lia. Qed.

  Lemma outcome_app c w rest : passed c + skipped c + Z.of_nat (length w) < check_filtered_interval ->
    outcome c (w ++ rest) = (filter g w ++ fst (outcome (tally c w) rest), snd (outcome (tally c w) rest)).
  Proof.
    revert c. induction w as [|v w IH]; intros c H.
    - replace (tally c []) with c by (destruct c; unfold tally; cbn; f_equal; lia). cbn. now destruct outcome.
    - cbn [length] in H. cbn [app outcome]. unfold check at 1.
      set (c1 := if g v then _ else _).
      assert (Hc1 : passed c1 + skipped c1 = passed c + skipped c + 1) by (unfold c1; destruct (g v); cbn; lia).
      destruct (Z.geb_spec (passed c1 + skipped c1) check_filtered_interval); [lia|].
      rewrite (IH c1) by lia.
      replace (tally c1 w) with (tally c (v :: w)).
      + cbn [filter]. now destruct (g v).
      + unfold tally, c1. cbn. destruct (g v); cbn; f_equal; lia.
  Qed.

  Lemma outcome_short rest : (length rest < W)%nat -> outcome checker0 rest = (filter g rest, Stop).
  Proof.
    intros H. pose proof W_Z. rewrite <- (app_nil_r rest) at 1. rewrite outcome_app by (cbn [passed skipped checker0]; lia).
    cbn. now rewrite app_nil_r.
  Qed.

  Lemma reaches_iff c w : length w = W -> c = tally checker0 w ->
    reaches thr (skipped c) (passed c + skipped c) = true <-> too_many thr g w.
  Proof.
    intros Hw ->. rewrite tally_total. unfold too_many, reaches, tally. cbn [passed skipped checker0].
    rewrite !Z.add_0_l. destruct thr as [[num den]|].
    - rewrite andb_true_iff, negb_true_iff, Z.eqb_neq, Z.geb_le. split.
      + intros [H1 H2]. exists num, den. split; [easy|]. split; [easy|lia].
      + intros (n & d & E & H1 & H2). injection E as <- <-. split; [easy|lia].
    - split; [easy|]. intros (n & d & E & _). easy.
  Qed.

  Lemma outcome_window rest : (W <= length rest)%nat ->
    let w := firstn W rest in
    (too_many thr g w -> outcome checker0 rest = (filter g (firstn (W - 1) rest), Fail ValueError)) /\
    (~ too_many thr g w -> outcome checker0 rest =
       (filter g w ++ fst (outcome checker0 (skipn W rest)), snd (outcome checker0 (skipn W rest)))).
  Proof.
    intros H w. pose proof W_Z as HZ. pose proof W_pos as HP.
    assert (Hlw : length w = W) by (unfold w; rewrite firstn_length; lia).
    destruct (nth_error rest (W - 1)) as [v|] eqn:Ev; [|apply nth_error_None in Ev; lia].
    set (w1 := firstn (W - 1) rest). assert (Hl1 : length w1 = (W - 1)%nat) by (unfold w1; rewrite firstn_length; lia).
    assert (Ew : w = w1 ++ [v]).
    { unfold w, w1. rewrite <- (firstn_S_nth _ _ _ Ev). replace (S (W - 1)) with W by lia. easy. }
    assert (Er : rest = w1 ++ v :: skipn W rest).
    { rewrite <- (firstn_skipn (W - 1) rest) at 1. fold w1. f_equal. rewrite (skipn_nth_cons _ _ _ Ev).
      replace (S (W - 1)) with W by lia. easy. }
    assert (Eo : outcome checker0 rest =
       (filter g w1 ++ fst (outcome (tally checker0 w1) (v :: skipn W rest)), snd (outcome (tally checker0 w1) (v :: skipn W rest)))).
    { rewrite Er at 1. apply outcome_app. cbn [passed skipped checker0]. lia. }
    rewrite Eo. cbn [outcome]. unfold check.
    set (c1 := if g v then _ else _).
    assert (Ec : c1 = tally checker0 w).
    { rewrite Ew. unfold c1, tally. rewrite !filter_app, !app_length. cbn [filter passed skipped checker0].
      destruct (g v); cbn [negb length passed skipped]; f_equal; lia. }
    pose proof (reaches_iff c1 w Hlw Ec) as HR.
    assert (HT : passed c1 + skipped c1 = check_filtered_interval).
    { rewrite Ec, tally_total, Hlw. cbn [passed skipped checker0]. lia. }
    rewrite HT in *. rewrite Z.geb_leb, Z.leb_refl. destruct (reaches thr (skipped c1) check_filtered_interval).
    - split; [|intros C; exfalso; now apply C, HR]. intros _. cbn. now rewrite app_nil_r.
    - split; [intros C; apply HR in C; easy|]. intros _. rewrite Ew, filter_app. cbn [filter].
      destruct (g v); [|now rewrite app_nil_r]. destruct (outcome checker0 (skipn W rest)). cbn [fst snd].
      now rewrite <- app_assoc.
  Qed.

  Lemma nth_window_shift (l : list A) m : nth_window W (skipn W l) m = nth_window W l (S m).
  Proof. unfold nth_window. rewrite skipn_skipn. f_equal. f_equal. lia. Qed.

  (** No complete window has too many removed elements: nothing happens. *)
  Lemma outcome_ok n : forall l, (length l <= n)%nat ->
    (forall m, (S m * W <= length l)%nat -> ~ too_many thr g (nth_window W l m)) ->
    outcome checker0 l = (filter g l, Stop).
  Proof.
    pose proof W_pos as HP. induction n as [|n IH]; intros l Hn Hm.
    - apply outcome_short. lia.
    - destruct (Nat.le_gt_cases W (length l)) as [H|H]; [|now apply outcome_short].
      destruct (outcome_window l H) as [_ H2].
      rewrite H2 by (apply (Hm 0%nat); lia). rewrite (IH (skipn W l)).
      + cbn [fst snd]. rewrite <- filter_app, firstn_skipn. easy.
      + rewrite skipn_length. lia.
      + intros m H3. rewrite nth_window_shift. apply Hm. rewrite skipn_length in H3. lia.
  Qed.

  (** Window [m] is the first with too many: ValueError at its last element. *)
  Lemma outcome_fail m : forall l, (S m * W <= length l)%nat -> too_many thr g (nth_window W l m) ->
    (forall m', (m' < m)%nat -> ~ too_many thr g (nth_window W l m')) ->
    outcome checker0 l = (filter g (firstn (S m * W - 1) l), Fail ValueError).
  Proof.
    pose proof W_pos as HP. induction m as [|m IH]; intros l Hl Hm Hlt.
    - destruct (outcome_window l ltac:(lia)) as [H1 _]. rewrite H1 by exact Hm. rewrite Nat.mul_1_l. easy.
    - destruct (outcome_window l ltac:(lia)) as [_ H2]. rewrite H2 by (apply (Hlt 0%nat); lia).
      rewrite (IH (skipn W l)).
      + cbn [fst snd]. replace (S (S m) * W - 1)%nat with (W + (S m * W - 1))%nat by lia.
        now rewrite firstn_plus, filter_app.
      + rewrite skipn_length. lia.
      + now rewrite nth_window_shift.
      + intros m' H. rewrite nth_window_shift. apply Hlt. lia.
  Qed.
End Threshold.

(** The check only ever replaces an outcome by ValueError: over any history the
    observations are those without the check, up to the first ValueError. *)
Fixpoint agree_until_error {A} (o o' : list (obs A)) : Prop :=
  match o, o' with
  | [], [] => True
  | Got (Fail ValueError) :: _, _ :: _ => True
  | x :: o1, y :: o2 => x = y /\ agree_until_error o1 o2
  | _, _ => False
  end.

Lemma agree_cons {A} (x : obs A) o o' : agree_until_error o o' -> agree_until_error (x :: o) (x :: o').
Proof. intros H. cbn. destruct x as [[a| |e|]| | | | |]; try (split; easy). destruct e; auto. Qed.

Lemma agree_error {A} (x : obs A) o o' : length o = length o' -> agree_until_error (Got (Fail ValueError) :: o) (x :: o').
Proof. easy. Qed.

Lemma filter_next_agree {A} thr f (p : Iter A) fuel : forall s c c',
  let r := filter_next thr f p fuel (s, c) in let r' := filter_next None f p fuel (s, c') in
  fst r = Fail ValueError \/ (fst r = fst r' /\ fst (snd r) = fst (snd r')).
Proof.
  induction fuel as [|fuel IH]; intros s c c'; [now right|]. cbn [filter_next fst snd].
  destruct (next p fuel s) as [[a| |e|] s']; cbn [bindn]; auto.
  destruct (f a) as [b|e|]; cbn [fst snd]; auto.
  pose proof (check_None c' b) as Hn. destruct (check None c' b) as [c1' e']. cbn in Hn. subst e'.
  destruct (check thr c b) as [c1 [e|]] eqn:Ec.
  - left. unfold check in Ec. cbn [fst]. revert Ec.
    match goal with |- (if ?x then _ else _) = _ -> _ => destruct x end; [|easy].
    destruct (reaches thr _ _); [|easy]. intros E. injection E as _ <-. easy.
  - destruct b; [now right|]. apply IH.
Qed.

Lemma filter_check_transparent {A} thr f (p : Iter A) fuel ops : forall s c c' cks,
  agree_until_error (run (filter_it thr f p) fuel ops (s, c) cks) (run (filter_it None f p) fuel ops (s, c') cks).
Proof.
  induction ops as [|o ops IH]; intros s c c' cks; [easy|]. destruct o as [| |k j|].
  - cbn [run next filter_it]. pose proof (filter_next_agree thr f p fuel s c c') as H. cbn zeta in H.
    destruct (filter_next thr f p fuel (s, c)) as [o1 [s1 c1]].
    destruct (filter_next None f p fuel (s, c')) as [o2 [s2 c2]]. cbn [fst snd] in H.
    destruct H as [->|[-> ->]]; [easy|]. apply agree_cons, IH.
  - cbn [run]. apply agree_cons, IH.
  - cbn [run filter_it ick jsonck set_state]. destruct (nth_error (A := ick p) cks k) as [ck|].
    + cbn [fst snd]. destruct (set_state p fuel s (if j then jsonck p ck else ck)); cbn [bind]; apply agree_cons, IH.
    + apply agree_cons, IH.
  - cbn [run]. apply agree_cons. apply IH.
Qed.

(** ** The same check in to_iter_dataset *)
Lemma pf_fill_checker {A} (ds : MapDs A) s : pf_checker (pf_fill ds s) = pf_checker s.
Proof. unfold pf_fill. now destruct fill_buffer. Qed.

Lemma pf_take_checker {A} (ds : MapDs A) s : pf_checker (snd (pf_take ds s)) = pf_checker s.
Proof.
  unfold pf_take. destruct (_ && _).
  - assert (H : pf_checker (match pf_buffer s with [] => pf_fill ds s | _ => s end) = pf_checker s)
      by (destruct (pf_buffer s); [apply pf_fill_checker|easy]).
    destruct (pf_buffer (match pf_buffer s with [] => pf_fill ds s | _ => s end)); cbn [snd].
    + exact H.
    + rewrite pf_fill_checker. exact H.
  - destruct (pf_buffer s); [|easy]. now destruct (mget ds (pf_ret s)).
Qed.

Lemma pf_apply_checker {A} (ds : MapDs A) ts : forall s, pf_checker (fold_left (pf_apply ds) ts s) = pf_checker s.
Proof.
  induction ts as [|t ts IH]; intros s; [easy|]. cbn. rewrite IH. destruct t; cbn; auto.
  unfold pf_start_prefetch. destruct (_ && _); [apply pf_fill_checker|easy].
Qed.

Lemma prefetch_drain {A} thr allow_nones (ds : MapDs A) E sched num_threads buffer_size :
  (forall i e, nth_error E i = Some e -> mget ds (Z.of_nat i) = Ok e) -> Z.of_nat (length E) = mlen ds ->
  forall fuel, (S (length E) <= fuel)%nat ->
  drain (prefetch_tuned sched thr allow_nones num_threads buffer_size ds) fuel (S (length E))
    (init (prefetch_tuned sched thr allow_nones num_threads buffer_size ds))
  = outcome thr (kept allow_nones) checker0 E.
Proof.
  intros HE Hlen fuel Hfuel. set (it := prefetch_tuned sched thr allow_nones num_threads buffer_size ds).
  assert (G : forall rest q fuel' k s j, skipn q E = rest -> (q + length rest = length E)%nat ->
       (S (length rest) <= fuel')%nat -> (length rest <= k)%nat -> pf_inv ds s -> pf_ret s = Z.of_nat q ->
       match prefetch_next thr allow_nones ds fuel' s with
       | (Yield a, s') => let (l, o) := drain it fuel k (s', j) in (a :: l, o)
       | (o, _) => ([], o)
       end = outcome thr (kept allow_nones) (pf_checker s) rest).
  { induction rest as [|e rest IH]; intros q fuel' k s j Hq Hl Hfu Hk Hi Hr.
    - destruct fuel' as [|fuel']; [lia|]. cbn [prefetch_next length] in *.
      destruct (Z.eqb_spec (pf_ret s) (mlen ds)); [easy|lia].
    - destruct fuel' as [|fuel']; [lia|]. cbn [length prefetch_next] in *.
      assert (He : nth_error E q = Some e).
      { rewrite <- (firstn_skipn q E), Hq, nth_error_app2; rewrite firstn_length; [|lia].
        now replace (q - Nat.min q (length E))%nat with 0%nat by lia. }
      destruct (Z.eqb_spec (pf_ret s) (mlen ds)) as [C|_]; [lia|].
      pose proof (pf_take_checker ds s) as Hck.
      destruct (pf_take_ok ds s e Hi ltac:(lia)) as (s1 & Et & Hr1 & Hi1); [rewrite Hr; now apply HE|].
      rewrite Et in Hck |- *. cbn [snd] in Hck. rewrite Hck. fold (kept allow_nones e). cbn [outcome].
      assert (Hq' : skipn (S q) E = rest) by (rewrite (skipn_nth_cons _ _ _ He) in Hq; congruence).
      destruct (check thr (pf_checker s) (kept allow_nones e)) as [c' [x|]]; [easy|].
      set (s2 := mkPf _ _ _ _ _ c'). assert (Hi2 : pf_inv ds s2) by (revert Hi1; now unfold pf_inv).
      assert (Hr2 : pf_ret s2 = Z.of_nat (S q)) by (cbn; lia).
      destruct (kept allow_nones e) eqn:K.
      + destruct k as [|k]; [lia|].
        destruct (pf_tunes_ok ds (sched j) s2 Hi2) as [Hi3 Hr3].
        specialize (IH (S q) fuel k (fold_left (pf_apply ds) (sched j) s2) (S j) Hq' ltac:(lia) ltac:(lia) ltac:(lia) Hi3 ltac:(lia)).
        rewrite pf_apply_checker in IH. change (pf_checker s2) with c' in IH. rewrite <- IH.
        cbn [drain next it prefetch_tuned prefetch_it].
        destruct (prefetch_next thr allow_nones ds fuel (fold_left (pf_apply ds) (sched j) s2)) as [[a| |x|] s']; reflexivity.
      + change c' with (pf_checker s2). apply (IH (S q) fuel' k s2 j); auto; lia. }
  assert (H0 : pf_inv ds (mkPf 0 0 [] buffer_size num_threads checker0)) by (apply pf_inv_empty; lia).
  destruct (pf_tunes_ok ds (sched 0%nat) _ H0) as [Hi Hr].
  pose proof (G E 0%nat fuel (length E) (fold_left (pf_apply ds) (sched 0%nat) (mkPf 0 0 [] buffer_size num_threads checker0)) 1%nat
    eq_refl ltac:(lia) ltac:(lia) ltac:(lia) Hi Hr) as HG.
  rewrite pf_apply_checker in HG. cbn [pf_checker] in HG. rewrite <- HG.
  cbn [drain next it prefetch_tuned prefetch_it init].
  destruct (prefetch_next thr allow_nones ds fuel (fold_left (pf_apply ds) (sched 0%nat) (mkPf 0 0 [] buffer_size num_threads checker0)))
    as [[a| |x|] s']; reflexivity.
Qed.

(** The state is the index after the last element returned. *)
Lemma prefetch_state {A} allow_nones (ds : MapDs A) E sched num_threads buffer_size :
  (forall i e, nth_error E i = Some e -> mget ds (Z.of_nat i) = Ok e) -> Z.of_nat (length E) <= mlen ds ->
  forall q e, nth_error E q = Some e -> kept allow_nones e = true ->
  forall fuel, (S (length E) <= fuel)%nat ->
  let it := prefetch_tuned sched None allow_nones num_threads buffer_size ds in
  get_state it (after it fuel (length (filter (kept allow_nones) (firstn (S q) E))) (init it)) = Z.of_nat (S q).
Proof.
  intros HE Hlen q e He Hk fuel Hfuel it.
  set (cn := fun n => length (filter (kept allow_nones) (firstn n E))).
  pose proof (nth_lt _ _ _ He) as Hql.
  (* while an element of index at most [q] is to come, next() returns and moves past it *)
  assert (Step : forall d n s, (n <= q)%nat -> d = (q - n)%nat -> pf_inv ds s -> pf_ret s = Z.of_nat n ->
    forall fuel', (length E - n < fuel')%nat ->
    exists a s' m, prefetch_next None allow_nones ds fuel' s = (Yield a, s') /\ pf_inv ds s' /\
      (m <= q)%nat /\ pf_ret s' = Z.of_nat (S m) /\ cn (S m) = S (cn n)).
  { induction d as [|d IH]; intros n s Hn Hd Hi Hr fuel' Hf.
    all: destruct (nth_error E n) as [v|] eqn:Ev; [|apply nth_error_None in Ev; lia].
    all: destruct fuel' as [|fuel']; [lia|]; cbn [prefetch_next].
    all: destruct (Z.eqb_spec (pf_ret s) (mlen ds)) as [C|_]; [lia|].
    all: destruct (pf_take_ok ds s v Hi ltac:(lia)) as (s1 & -> & Hr1 & Hi1); [rewrite Hr; now apply HE|].
    all: fold (kept allow_nones v); pose proof (check_None (pf_checker s1) (kept allow_nones v)) as Hc;
      destruct (check None (pf_checker s1) (kept allow_nones v)) as [c err]; cbn in Hc; subst err;
      set (s2 := mkPf _ _ _ _ _ c); assert (Hi2 : pf_inv ds s2) by (revert Hi1; now unfold pf_inv);
      assert (Hr2 : pf_ret s2 = Z.of_nat (S n)) by (cbn; lia).
    all: assert (Hcn : cn (S n) = (cn n + if kept allow_nones v then 1 else 0)%nat)
      by (unfold cn; rewrite (filter_firstn_S _ _ _ _ Ev), app_length; now destruct (kept allow_nones v)).
    all: destruct (kept allow_nones v) eqn:K.
    1, 3: eexists _, s2, n; split; [reflexivity|]; split; [easy|]; split; [lia|]; split; [easy|lia].
    - assert (n = q) as -> by lia. congruence.
    - assert (n <> q) by (intros ->; congruence).
      destruct (IH (S n) s2 ltac:(lia) ltac:(lia) Hi2 Hr2 fuel' ltac:(lia)) as (a & s' & m & E1 & E2 & E3 & E4 & E5).
      exists a, s', m. split; [easy|]. split; [easy|]. split; [lia|]. split; [easy|lia]. }
  assert (Hmono : forall n m, (n <= m)%nat -> (cn n <= cn m)%nat).
  { intros n m H. unfold cn. replace m with (n + (m - n))%nat by lia. rewrite firstn_plus, filter_app, app_length. lia. }
  assert (Hcq : cn (S q) = S (cn q)).
  { unfold cn. rewrite (filter_firstn_S _ _ _ _ He), Hk, app_length. cbn. lia. }
  assert (G : forall d n s k, (n <= S q)%nat -> pf_inv ds s -> pf_ret s = Z.of_nat n -> cn (S q) = (d + cn n)%nat ->
    get_state it (after it fuel d (s, k)) = Z.of_nat (S q)).
  { induction d as [|d IH]; intros n s k Hn Hi Hr Hd.
    - change (pf_ret s = Z.of_nat (S q)). rewrite Hr. assert (n = S q); [|congruence].
      destruct (Nat.eq_dec n (S q)) as [|Hne]; [easy|]. pose proof (Hmono n q ltac:(lia)). lia.
    - assert (Hnq : (n <= q)%nat).
      { destruct (Nat.eq_dec n (S q)) as [->|]; lia. }
      destruct (pf_tunes_ok ds (sched k) s Hi) as [Hi' Hr'].
      destruct (Step _ n (fold_left (pf_apply ds) (sched k) s) Hnq eq_refl Hi' ltac:(lia) fuel ltac:(lia))
        as (a & s' & m & Ex & Hi2 & Hm1 & Hm2 & Hm3).
      cbn [after next it prefetch_tuned prefetch_it]. rewrite Ex. cbn [snd].
      apply (IH (S m) s' (S k)); auto; lia. }
  cbn [init it prefetch_tuned prefetch_it]. apply (G _ 0%nat); [lia|apply pf_inv_empty; lia|easy|].
  unfold cn. cbn [firstn filter length]. lia.
Qed.
