(** Proofs about legacy operations (Operations.v). *)
From Verif Require Import Base ListFacts Spec MapDatasets Samplers Iter IterSpec IterLaw IterBasic_proofs IterMany_proofs IterBatch_proofs DataLoader DataLoaderSpec DataLoader_proofs Operations.

Local Ltac spl := repeat match goal with |- _ /\ _ => split end.

(** What the generator yields for a list of records, and the records left for a batch. *)
Fixpoint feed {G A} (op : operation G A) (buf l : list (lrec G A)) : res (list (lrec G A) * list (lrec G A)) :=
  match l with
  | [] => Ok ([], buf)
  | r :: l' =>
      let! xb := op_body op buf r in
      let! eb := feed op (snd xb) l' in
      Ok (match fst xb with Some x => x :: fst eb | None => fst eb end, snd eb)
  end.
Definition yielded {G A} (op : operation G A) (l : list (lrec G A)) : res (list (lrec G A)) :=
  let! eb := feed op [] l in
  let! x := op_flush op (snd eb) in
  Ok (fst eb ++ match x with Some x => [x] | None => [] end).

Lemma feed_app {G A} (op : operation G A) l1 : forall buf l2 e1 b1, feed op buf l1 = Ok (e1, b1) ->
  feed op buf (l1 ++ l2) = let! eb := feed op b1 l2 in Ok (e1 ++ fst eb, snd eb).
Proof.
  induction l1 as [|r l1 IH]; intros buf l2 e1 b1; cbn [feed app].
  - injection 1 as <- <-. destruct (feed op buf l2) as [[e b]| |]; reflexivity.
  - intros H. apply bind_ok' in H as ((x & b) & Eb & H). rewrite Eb. cbn [bind fst snd] in *. apply bind_ok' in H as ((e & b') & E & H).
    injection H as <- <-. rewrite (IH _ _ _ _ E). cbn [fst snd]. destruct (feed op b' l2) as [[e2 b2]| |]; cbn [bind fst snd]; destruct x; reflexivity.
Qed.
Lemma feed_prefix {G A} (op : operation G A) l1 : forall buf l2 e b, feed op buf (l1 ++ l2) = Ok (e, b) ->
  exists e1 b1 e2, feed op buf l1 = Ok (e1, b1) /\ feed op b1 l2 = Ok (e2, b) /\ e = e1 ++ e2.
Proof.
  induction l1 as [|r l1 IH]; intros buf l2 e b; cbn [feed app].
  - intros H. exists [], buf, e. auto.
  - intros H. apply bind_ok' in H as ((x & b0) & Eb & H). cbn [fst snd] in H. apply bind_ok' in H as ((e' & b') & E & H). injection H as <- <-.
    destruct (IH _ _ _ _ E) as (e1 & b1 & e2 & E1 & E2 & Ee). rewrite Eb. cbn [bind fst snd]. rewrite E1. cbn [bind fst snd].
    eexists _, b1, e2. spl; [reflexivity|exact E2|]. cbn [fst]. rewrite Ee. destruct x; reflexivity.
Qed.
Section Generator.
  Context {G A : Type} (op : operation G A) (p : Iter (option (lrec G A))) (l out : list (lrec G A)) (used json : bool).
  Context (N : nat) (rep : ist p -> nat -> Prop) (crep : ick p -> nat -> Prop) (L : Law p (map Some l) true used json N rep crep).
  Context (Hout : yielded op l = Ok out).

  (* the position of the output that belongs to position k of the input, if the generator has no records waiting *)
  Definition gpos (k j : nat) : Prop :=
    (k <= length l)%nat /\ ((exists e, feed op [] (firstn k l) = Ok (e, []) /\ j = length e) \/ (k = length l /\ j = length out)).
  Definition grep (s : gen_st (ist p) (lrec G A)) (j : nat) : Prop :=
    exists k, rep (g_parent s) k /\ gpos k j /\ ((g_done s = false /\ g_buf s = []) \/ (g_done s = true /\ k = length l /\ j = length out)).
  Definition gcrep (c : ick p) (j : nat) : Prop := exists k, crep c k /\ gpos k j.

  Lemma body_buf buf r x b : op_body op buf r = Ok (x, b) -> (match op with BatchOp _ _ _ => True | _ => buf = [] end) ->
    (match op with BatchOp _ _ _ => True | _ => b = [] end) /\ (x <> None -> b = []).
  Proof.
    destruct op; cbn [op_body]; intros H Hb; try (apply bind_ok' in H as (? & _ & H); injection H; intros; subst; auto; fail).
    destruct (_ =? _); [|injection H as <- <-; now split]. apply bind_ok' in H as (? & _ & H). injection H; intros; subst; auto.
  Qed.

  Lemma run_ok fuel0 : (N <= fuel0)%nat -> forall rest k s buf fuel em b, rep s k -> skipn k l = rest -> (length rest < fuel)%nat -> (k <= length l)%nat ->
    (match op with BatchOp _ _ _ => True | _ => buf = [] end) ->
    feed op buf rest = Ok (em, b) ->
    match em with
    | x :: _ => exists s' k', op_run op p fuel0 fuel buf s = (Yield (Some x), mkGen s' [] false) /\ rep s' k' /\ (k < k' <= length l)%nat /\
                  feed op buf (firstn (k' - k) rest) = Ok ([x], [])
    | [] => exists s' b', rep s' (length l) /\ match op_flush op b with
            | Ok (Some x) => op_run op p fuel0 fuel buf s = (Yield (Some x), mkGen s' b' true)
            | Ok None => op_run op p fuel0 fuel buf s = (Stop, mkGen s' b' true)
            | _ => True
            end
    end.
  Proof.
    intros Hf0. induction rest as [|r rest IH]; intros k s buf fuel em b Hr Hrest Hf Hk Hbuf E.
    - cbn [feed] in E. injection E as <- <-. assert (k = length l) as ->.
      { assert (length (skipn k l) = 0%nat) by now rewrite Hrest. rewrite skipn_length in H. lia. }
      destruct fuel as [|fuel]; [cbn in Hf; lia|].
      destruct (law_stop L fuel0 s Hf0 eq_refl) as (s' & Es & Hs); [now rewrite map_length|]. rewrite map_length in Hs.
      exists s', buf. split; [exact Hs|]. cbn [op_run]. rewrite Es. destruct (op_flush op buf) as [[x|]| |]; auto.
    - assert (Hn : nth_error (map Some l) k = Some (Some r)).
      { rewrite nth_error_map, <- (firstn_skipn k l), Hrest, nth_error_app2 by (rewrite firstn_length; lia).
        rewrite firstn_length, Nat.min_l, Nat.sub_diag by lia. reflexivity. }
      destruct (law_next L fuel0 s k _ Hf0 Hr Hn) as (s' & Es & Hs).
      assert (Hk1 : (S k <= length l)%nat).
      { assert (H : length (skipn k l) = S (length rest)) by now rewrite Hrest. rewrite skipn_length in H. lia. }
      assert (Hrest1 : skipn (S k) l = rest). { replace (S k) with (1 + k)%nat by lia. rewrite <- skipn_skipn. now rewrite Hrest. }
      cbn [feed] in E. apply bind_ok' in E as ((x & b1) & Eb & E). cbn [fst snd] in E. apply bind_ok' in E as ((em' & b') & E1 & E). injection E as <- <-.
      destruct (body_buf _ _ _ _ Eb Hbuf) as (Hbuf1 & Hx).
      destruct fuel as [|fuel]; [cbn in Hf; lia|]. cbn [op_run]. rewrite Es, Eb. cbn [fst].
      destruct x as [x|].
      + exists s', (S k). rewrite (Hx ltac:(easy)). spl; auto. replace (S k - k)%nat with 1%nat by lia. cbn [firstn feed]. rewrite Eb, (Hx ltac:(easy)). reflexivity.
      + specialize (IH (S k) s' b1 fuel em' b' Hs Hrest1 ltac:(cbn in Hf; lia) Hk1 Hbuf1 E1).
        destruct em' as [|y em'].
        * exact IH.
        * destruct IH as (s2 & k2 & E2 & Hs2 & Hk2 & Ef). exists s2, k2. spl; auto; try lia.
          replace (k2 - k)%nat with (S (k2 - S k)) by lia. cbn [firstn feed]. rewrite Eb. cbn [bind snd fst]. now rewrite Ef.
  Qed.
  
  (* one step of next() *)
  Lemma gen_next fuel s j : (N + S (length l) <= fuel)%nat -> grep s j ->
    match nth_error out j with
    | Some x => exists s', next (operation_iter op p) fuel s = (Yield (Some x), s') /\ grep s' (S j)
    | None => j = length out /\ exists s', next (operation_iter op p) fuel s = (Stop, s') /\ grep s' j
    end.
  Proof.
    intros Hf (k & Hr & (Hk & Hpos) & Hd).
    pose proof Hout as HO. unfold yielded in HO. apply bind_ok' in HO as ((e & b) & Ee & HO). cbn [fst snd] in HO. apply bind_ok' in HO as (x & Ex & HO). injection HO as Ho.
    destruct Hd as [(Hd & Hbuf)|(Hd & -> & ->)].
    2:{ replace (nth_error out (length out)) with (@None (lrec G A)) by (symmetry; now apply nth_error_None). split; [easy|].
        exists s. split; [cbn [operation_iter next]; now rewrite Hd|]. exists (length l). spl; auto. split; auto. }
    cbn [operation_iter next]. rewrite Hd, Hbuf.
    destruct Hpos as [(e1 & E1 & ->)|(-> & ->)].
    - assert (Ee' : feed op [] (firstn k l ++ skipn k l) = Ok (e, b)) by now rewrite firstn_skipn.
      apply feed_prefix in Ee' as (e1' & b1 & e2 & E1' & E2 & ->). rewrite E1 in E1'. injection E1' as <- <-.
      pose proof (run_ok fuel ltac:(lia) (skipn k l) k (g_parent s) [] fuel e2 b Hr eq_refl ltac:(rewrite skipn_length; lia) Hk ltac:(now destruct op) E2) as R.
      assert (Hnth : nth_error out (length e1) = nth_error (e2 ++ match x with Some x => [x] | None => [] end) 0).
      { rewrite <- Ho, <- app_assoc, nth_error_app2, Nat.sub_diag by lia. reflexivity. }
      assert (Hlen : length out = (length e1 + length e2 + match x with Some _ => 1 | None => 0 end)%nat).
      { rewrite <- Ho, !app_length. destruct x; reflexivity. }
      rewrite Hnth. destruct e2 as [|y e2].
      + destruct R as (s' & b' & Hs' & R). rewrite Ex in R. cbn [length] in Hlen. destruct x as [x|]; cbn [app nth_error].
        * eexists. split; [exact R|]. exists (length l). cbn [g_parent g_done]. spl; [exact Hs'| |].
          -- split; [easy|]. right. split; [easy|lia].
          -- right. spl; auto. lia.
        * split; [lia|]. eexists. split; [exact R|]. exists (length l). cbn [g_parent g_done]. spl; [exact Hs'| |].
          -- split; [easy|]. right. split; [easy|lia].
          -- right. spl; auto. lia.
      + destruct R as (s' & k' & R & Hs' & Hk' & Ef). cbn [nth_error app].
        eexists. split; [exact R|]. exists k'. cbn [g_parent g_done g_buf]. spl; [exact Hs'| |now left]. split; [lia|]. left.
        exists (e1 ++ [y]). split; [|rewrite app_length; cbn; lia].
        assert (Hsplit : firstn k' l = firstn k l ++ firstn (k' - k) (skipn k l)).
        { rewrite <- (firstn_skipn k l) at 1. rewrite firstn_app, firstn_length, Nat.min_l by lia. f_equal. apply firstn_all2. rewrite firstn_length. lia. }
        rewrite Hsplit, (feed_app _ _ _ _ _ _ E1), Ef. reflexivity.
    - pose proof (run_ok fuel ltac:(lia) [] (length l) (g_parent s) [] fuel [] [] Hr ltac:(apply skipn_all) ltac:(cbn; lia) ltac:(lia) ltac:(now destruct op) eq_refl) as (s' & b' & Hs' & R).
      replace (nth_error out (length out)) with (@None (lrec G A)) by (symmetry; now apply nth_error_None). split; [easy|].
      assert (F : op_flush op [] = Ok None) by now destruct op. rewrite F in R. eexists. split; [exact R|].
      exists (length l). cbn [g_parent g_done]. spl; [exact Hs'|split; auto|auto].
  Qed.

  Lemma generator_checkpointable : checkpointable (operation_iter op p) (map Some out) true false json.
  Proof.
    exists (N + S (length l))%nat. intros fuel ops Hf _ Hu Hj. specialize (Hu eq_refl).
    assert (H : forall ops s j cks qs fresh, grep s j -> Forall2 gcrep cks qs -> (fresh = true -> s = init (operation_iter op p) /\ j = 0%nat) ->
      fresh_loads fresh ops = true -> (json = false -> no_json ops = true) ->
      run (operation_iter op p) fuel ops s cks = cursor (map Some out) ops j qs).
    { clear ops Hu Hj. induction ops as [|o ops IH]; intros s j cks qs fresh Hr Hcks Hfr Hu Hj; [reflexivity|].
      assert (Hj' : json = false -> no_json ops = true).
      { intros J. specialize (Hj J). cbn in Hj. now apply andb_true_iff in Hj as [_ Hj]. }
      destruct o as [| |i js|]; cbn [run cursor].
      - pose proof (gen_next fuel s j Hf Hr) as Hn. rewrite nth_error_map. cbn [fresh_loads] in Hu. destruct (nth_error out j) as [x|]; cbn [option_map].
        + destruct Hn as (s' & E & Hr'). rewrite E. f_equal. now apply (IH _ _ _ _ false).
        + destruct Hn as (_ & s' & E & Hr'). rewrite E. f_equal. now apply (IH _ _ _ _ false).
      - f_equal. apply (IH _ _ _ _ fresh); auto. apply Forall2_app; [exact Hcks|]. constructor; [|constructor].
        destruct Hr as (k & Hr & Hp & _). exists k. split; [now apply (law_get L)|exact Hp].
      - cbn [fresh_loads] in Hu. apply andb_prop in Hu as (Hu1 & Hu2). destruct (Hfr Hu1) as (-> & ->).
        change (@nth_error (ick (operation_iter op p)) cks i) with (@nth_error (ick p) cks i).
        pose proof (Forall2_nth_None _ _ _ i Hcks) as Hnn. destruct (nth_error qs i) as [q|] eqn:Eq.
        + destruct (nth_error cks i) as [c|] eqn:Ec; [|now assert (Some q = None) by now apply Hnn].
          destruct (Forall2_nth_error _ _ _ _ _ _ Hcks Ec Eq) as (k & Hc & Hp).
          assert (Hc' : crep (if js then jsonck p c else c) k).
          { destruct js; [|exact Hc]. destruct json eqn:J; [now apply (law_json L)|]. exfalso. specialize (Hj eq_refl). cbn in Hj. discriminate. }
          destruct (law_fresh L fuel _ k ltac:(lia) Hc') as (s' & E & Hr'); [unfold live; rewrite map_length; destruct Hp; lia|].
          assert (E' : set_state (operation_iter op p) fuel (init (operation_iter op p)) (if js then jsonck (operation_iter op p) c else c) = Ok (mkGen s' [] false))
            by (cbn; now rewrite E).
          rewrite E'. f_equal. apply (IH _ _ _ _ false); auto; [|easy].
          exists k. cbn [g_parent g_done g_buf]. auto.
        + destruct (nth_error cks i) as [c|] eqn:Ec; [now assert (Some c = None) by now apply Hnn|]. f_equal. now apply (IH _ _ _ _ false).
      - f_equal. cbn [fresh_loads] in Hu. apply (IH _ 0%nat _ _ true); auto. exists 0%nat. cbn. spl; [apply (law_init L)| |now left]. split; [lia|]. left. exists []. easy. }
    apply (H ops _ 0%nat [] [] true); auto. exists 0%nat. cbn. spl; [apply (law_init L)| |now left]. split; [lia|]. left. exists []. easy.
  Qed.
End Generator.

(** ** The same as the transformations *)
Definition transform_of {G A} (op : operation G A) : loader_op G A :=
  match op with MapOp f => LMap f | RandomMapOp f => LRandomMap f | FilterOp f => LFilter f | BatchOp n d f => LBatch n d f end.
Definition without_key {G A} (r : lrec G A) : lrec G A := mkRec (mkMd (md_index (rec_md r)) None (md_rng (rec_md r))) (rec_gen r) (rec_data r).

Lemma yielded_simple {G A} (op : operation G A) l l' : (forall n d f, op <> BatchOp n d f) ->
  load1 (transform_of op) l = Ok l' -> feed op [] l = Ok (map without_key l', []).
Proof.
  intros Hn. revert l'. induction l as [|r l IH]; intros l' H.
  - destruct op; try (injection H as <-; reflexivity). now edestruct Hn.
  - destruct op as [f|f|f|n d f]; [| | |now edestruct Hn]; cbn [transform_of load1 map sequence combine filter] in *.
    + apply bind_ok' in H as (x & Ex & H). apply bind_ok' in Ex as (dd & Ed & Ex). injection Ex as <-. apply bind_ok' in H as (l1 & E1 & H). injection H as <-.
      cbn [feed op_body]. rewrite Ed. cbn [as_value_error bind snd fst]. rewrite (IH _ E1). reflexivity.
    + apply bind_ok' in H as (x & Ex & H). apply bind_ok' in Ex as (dd & Ed & Ex). injection Ex as <-. apply bind_ok' in H as (l1 & E1 & H). injection H as <-.
      cbn [feed op_body]. rewrite Ed. cbn [as_value_error bind snd fst]. rewrite (IH _ E1). reflexivity.
    + apply bind_ok' in H as (bs & Eb & H). apply bind_ok' in Eb as (b & Ed & Eb). apply bind_ok' in Eb as (bs' & Eb' & Eb). injection Eb as <-. injection H as <-.
      cbn [feed op_body]. rewrite Ed. cbn [as_value_error bind snd fst]. rewrite Eb' in IH. specialize (IH _ eq_refl). rewrite IH. cbn [combine filter snd].
      destruct b; reflexivity.
Qed.

(* a batch *)
Lemma feed_partial {G A} n drop (fn : list (option A) -> res (option A)) (l : list (lrec G A)) : forall buf, (Z.of_nat (length buf + length l) < n) ->
  feed (BatchOp n drop fn) buf l = Ok ([], buf ++ l).
Proof.
  induction l as [|r l IH]; intros buf H; cbn [feed]; [now rewrite app_nil_r|]. cbn [op_body length] in *. rewrite app_length. cbn [length].
  replace (Z.of_nat (length buf + 1) =? n) with false by lia. cbn [bind snd fst]. rewrite IH by (rewrite app_length; cbn; lia). cbn [bind fst snd]. now rewrite <- app_assoc.
Qed.
Definition batch_rec {G A} (fn : list (option A) -> res (option A)) (group : list (lrec G A)) : res (lrec G A) :=
  let! d := fn (map rec_data group) in
  match rev group with
  | [] => Raise IndexError
  | r :: _ => Ok (mkRec (mkMd (md_index (rec_md r)) None (md_rng (rec_md r))) (rec_gen r) d)
  end.
Lemma feed_group {G A} n drop (fn : list (option A) -> res (option A)) (g l : list (lrec G A)) x : 0 < n -> Z.of_nat (length g) = n -> batch_rec fn g = Ok x ->
  feed (BatchOp n drop fn) [] (g ++ l) = let! eb := feed (BatchOp n drop fn) [] l in Ok (x :: fst eb, snd eb).
Proof.
  intros Hn Hg Hx. destruct (exists_last (l := g)) as (g' & r & ->); [intros ->; cbn in Hg; lia|].
  rewrite app_length in Hg. cbn [length] in Hg. rewrite <- app_assoc. erewrite (feed_app _ g'); [|apply feed_partial; cbn; lia]. cbn [app feed op_body].
  rewrite app_length. cbn [length]. replace (Z.of_nat (length g' + 1) =? n) with true by lia.
  unfold batch_rec in Hx. apply bind_ok' in Hx as (d & Ed & Hx). rewrite rev_app_distr in Hx. cbn [rev app] in Hx. injection Hx as <-. rewrite Ed. cbn [bind snd fst].
  destruct (feed _ [] l) as [[e b]| |]; reflexivity.
Qed.
Lemma yielded_batch {G A} n (drop : bool) (fn : list (option A) -> res (option A)) (l l' : list (lrec G A)) : 0 < n ->
  sequence (map (batch_rec fn) ((if drop then @full_chunks (lrec G A) else @chunks (lrec G A)) (Z.to_nat n) l)) = Ok l' ->
  yielded (BatchOp n drop fn) l = Ok l'.
Proof.
  intros Hn. assert (Hb : (0 < Z.to_nat n)%nat) by lia. revert l'. remember (length l) as m eqn:Hm. revert l Hm.
  induction m as [m IH] using lt_wf_ind. intros l Hm l' H. destruct (Nat.ltb_spec (length l) (Z.to_nat n)) as [Hlt|Hge].
  - unfold yielded. rewrite feed_partial by (cbn; lia). cbn [app bind snd fst op_flush].
    destruct l as [|r0 l0].
    { destruct drop; cbn in H; injection H as <-; reflexivity. }
    assert (Ec : chunks (Z.to_nat n) (r0 :: l0) = [r0 :: l0]).
    { rewrite chunks_step by easy. rewrite firstn_all2, skipn_all2 by lia. now rewrite chunks_nil. }
    destruct (exists_last (l := r0 :: l0) ltac:(easy)) as (g & r & Eg). rewrite Eg in *. rewrite rev_app_distr. cbn [rev app].
    destruct drop.
    + assert (Ef : full_chunks (Z.to_nat n) (g ++ [r]) = []).
      { unfold full_chunks. rewrite Ec. cbn [filter]. replace (Nat.eqb (length (g ++ [r])) (Z.to_nat n)) with false; [easy|]. symmetry. apply Nat.eqb_neq. lia. }
      rewrite Ef in H. injection H as <-. reflexivity.
    + rewrite Ec in H. cbn [map sequence] in H. apply bind_ok' in H as (x & Ex & H). injection H as <-. unfold batch_rec in Ex. apply bind_ok' in Ex as (d & Ed & Ex).
      rewrite rev_app_distr in Ex. cbn [rev app] in Ex. injection Ex as <-. rewrite Ed. reflexivity.
  - assert (Hne : l <> []) by (intros ->; cbn in Hge; lia).
    assert (Hstep : (if drop then @full_chunks (lrec G A) else @chunks (lrec G A)) (Z.to_nat n) l = firstn (Z.to_nat n) l :: (if drop then @full_chunks (lrec G A) else @chunks (lrec G A)) (Z.to_nat n) (skipn (Z.to_nat n) l)).
    { destruct drop; [|now apply chunks_step]. unfold full_chunks. rewrite (chunks_step _ l Hb Hne). cbn [filter].
      replace (Nat.eqb (length (firstn (Z.to_nat n) l)) (Z.to_nat n)) with true; [easy|]. symmetry. apply Nat.eqb_eq. rewrite firstn_length. lia. }
    rewrite Hstep in H. cbn [map sequence] in H. apply bind_ok' in H as (x & Ex & H). apply bind_ok' in H as (l1 & E1 & H). injection H as <-.
    specialize (IH (length (skipn (Z.to_nat n) l)) ltac:(rewrite skipn_length; lia) (skipn (Z.to_nat n) l) eq_refl l1 E1).
    unfold yielded in *. rewrite <- (firstn_skipn (Z.to_nat n) l). rewrite (feed_group n drop fn _ _ x Hn); [|rewrite firstn_length; lia|exact Ex].
    apply bind_ok' in IH as ((e & b) & Ee & IH). rewrite Ee. cbn [bind fst snd] in *. apply bind_ok' in IH as (y & Ey & IH). rewrite Ey. cbn [bind]. injection IH as <-. reflexivity.
Qed.
Lemma yielded_load {G A} (op : operation G A) l l' : load1 (transform_of op) l = Ok l' -> yielded op l = Ok (map without_key l').
Proof.
  intros H. destruct op as [f|f|f|n d f].
  1-3: unfold yielded; erewrite yielded_simple; [|intros; discriminate|exact H]; cbn [bind snd op_flush fst]; now rewrite app_nil_r.
  cbn [transform_of load1] in H. destruct (Z.leb_spec n 0); [discriminate|].
  replace (map without_key l') with l'; [now apply yielded_batch|].
  apply sequence_ok in H. rewrite Forall2_map_l in H. revert H. generalize ((if d then @full_chunks (lrec G A) else @chunks (lrec G A)) (Z.to_nat n) l). intros cs F.
  induction F as [|c x cs xs Hx F IH]; [reflexivity|]. cbn [map]. rewrite <- IH. f_equal.
  apply bind_ok' in Hx as (dd & _ & Hx). destruct (rev c); [discriminate|]. now injection Hx as <-.
Qed.

(** ** The transformations by themselves *)
Lemma transform_lawful {G A} (op : loader_op G A) p l l' used json : lawful p (map Some l) true used json -> load1 op l = Ok l' ->
  exists it, transform_it op p = Ok it /\ lawful it (map Some l') true used json.
Proof.
  intros HL E. destruct op as [f|f|f|n drop fn]; cbn [load1 transform_it] in *.
  - eexists. split; [reflexivity|]. apply (lawful_map _ _ (map Some l)); [|exact HL].
    apply sequence_ok in E. rewrite Forall2_map_l in E. rewrite Forall2_map_l, Forall2_map_r. eapply Forall2_weaken; [|exact E].
    intros r r' H. cbn [map_element]. apply bind_ok' in H as (d & Ed & H). injection H as <-. cbn. unfold on_map. rewrite Ed. reflexivity.
  - eexists. split; [reflexivity|]. apply (lawful_map _ _ (map Some l)); [|exact HL].
    apply sequence_ok in E. rewrite Forall2_map_l in E. rewrite Forall2_map_l, Forall2_map_r. eapply Forall2_weaken; [|exact E].
    intros r r' H. cbn [map_element]. apply bind_ok' in H as (d & Ed & H). injection H as <-. cbn. unfold on_random_map. rewrite Ed. reflexivity.
  - apply bind_ok' in E as (bs & E & Hk). injection Hk as <-. apply sequence_ok in E. rewrite Forall2_map_l in E.
    eexists. split; [reflexivity|].
    replace (map Some (map fst (filter snd (combine l bs)))) with (filter (fun r => truth (on_filter f r)) (map Some l)).
    + apply lawful_filter; [|exact HL]. clear - E. induction E as [|r b l bs H E IH]; [constructor|]. cbn [map]. constructor; [|exact IH].
      cbn [on_filter]. now rewrite H.
    + clear - E. induction E as [|r b l bs H E IH]; [reflexivity|]. cbn [map combine filter snd]. cbn [on_filter]. rewrite H. cbn [truth].
      destruct b; cbn [map fst]; now rewrite IH.
  - destruct (n <=? 0) eqn:Hn; [discriminate|]. unfold batch_it. rewrite Hn. eexists. split; [reflexivity|].
    apply (lawful_batch n drop (on_batch fn) p _ (map Some l) (map Some l') true used json); [unfold batch_it; now rewrite Hn| |exact HL].
    cbn [andb]. apply sequence_ok in E. rewrite Forall2_map_l in E.
    assert (Hc : (if negb drop then chunks (Z.to_nat n) (map Some l) else full_chunks (Z.to_nat n) (map Some l)) =
                 map (map Some) ((if drop then full_chunks else chunks) (Z.to_nat n) l)).
    { destruct drop; cbn [negb]; [apply full_chunks_map|apply chunks_map]. }
    rewrite Hc, Forall2_map_l, Forall2_map_r. eapply Forall2_weaken; [|exact E]. intros g r' H. cbn beta.
    unfold on_batch. rewrite map_map, (sequence_map_ok _ (fun r => r)) by reflexivity. cbn [bind]. rewrite map_id.
    apply bind_ok' in H as (d & -> & H). cbn [bind]. destruct (rev g); [discriminate|]. now injection H as <-.
Qed.

Lemma run_drain {A} (it : Iter A) fuel l : forall s, 
  run it fuel (List.repeat ONext (S (length l))) s [] = map (fun a => Got (Yield a)) l ++ [Got Stop] -> drain it fuel (S (length l)) s = (l, Stop).
Proof.
  induction l as [|a l IH]; intros s.
  - cbn. destruct (next it fuel s) as (o & s'). injection 1 as ->. reflexivity.
  - change (length (a :: l)) with (S (length l)). remember (S (length l)) as n. cbn [List.repeat run map app drain].
    destruct (next it fuel s) as (o & s'). injection 1 as -> H. rewrite (IH s' H). reflexivity.
Qed.
Lemma cursor_all {A} (l : list A) : forall n p, (p + n = length l)%nat ->
  cursor l (List.repeat ONext (S n)) p [] = map (fun a => Got (Yield a)) (skipn p l) ++ [Got Stop].
Proof.
  induction n as [|n IH]; intros p Hp.
  - cbn [List.repeat cursor]. replace (nth_error l p) with (@None A) by (symmetry; apply nth_error_None; lia). rewrite skipn_all2 by lia. reflexivity.
  - cbn [List.repeat cursor]. destruct (nth_error l p) as [a|] eqn:E; [|apply nth_error_None in E; lia].
    pose proof (IH (S p) ltac:(lia)) as H. cbn [List.repeat cursor] in H. rewrite H. rewrite (skipn_nth_cons _ _ _ E). reflexivity.
Qed.
Lemma checkpointable_elements {A} (it : Iter A) l used json : checkpointable it l true used json -> elements it l.
Proof.
  intros (N & H). exists N. intros fuel Hf. apply run_drain.
  assert (F : forall n b, fresh_loads b (List.repeat ONext n) = true) by (induction n; intros b; cbn; auto).
  assert (J : forall n, no_json (List.repeat ONext n) = true) by (unfold no_json; induction n; cbn; auto).
  rewrite H; auto; [|easy]. exact (cursor_all l (length l) 0 eq_refl).
Qed.
