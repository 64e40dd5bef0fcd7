(** Properties C40-C42: packing. *)
From Coq Require Import Permutation Sorted.
From Verif Require Import Base ListFacts MapDatasets Iter IterSpec IterLaw IterBasic_proofs Pipeline_proofs Prop_Iter Packing PackingSpec Packing_proofs.

(** ** C40: what the rows contain *)

(** Reading the packed dataset gives the rows of the batches that first fit or best fit makes
    of the elements. *)
Theorem C40_rows {A M} best (fs : list (feature A)) bins max_seq permuted seed shuffle_bins group (p : Iter (element A M)) l fin used json :
  usable fs bins max_seq seed -> permutes permuted -> lawful p l fin used json -> Forall (fits_alone fs) l ->
  exists it bs order, packing best fs bins max_seq permuted seed shuffle_bins group p = Ok it /\
    packs (places best fs max_seq) bins l bs /\ row_order shuffle_bins group order /\
    outputs it (emission fs order 0 (if fin then bs else removelast bs)) fin.
Proof.
  intros Hu Hp HL Hf. destruct (packing_lawful best fs bins max_seq permuted seed shuffle_bins group p l fin used json Hu Hp HL Hf) as (it & bs & order & E & Hbs & Ho & Hlaw).
  exists it, bs, order. split; [exact E|]. split; [exact Hbs|]. split; [exact Ho|]. eapply lawful_outputs, Hlaw.
Qed.
(** ... and the batches are determined by the elements. *)
Theorem C40_batches_determined {A M} best (fs : list (feature A)) bins max_seq (l : list (element A M)) bs bs' :
  packs (places best fs max_seq) bins l bs -> packs (places best fs max_seq) bins l bs' -> bs = bs'.
Proof.
  assert (D : forall rs (e : element A M) i j, places best fs max_seq rs e i -> places best fs max_seq rs e j -> i = j).
  { intros rs e i j. destruct best; [apply best_fit_det|apply first_fit_det]. }
  assert (F : forall rs (l : list (element A M)) b rest, fills (places best fs max_seq) rs l b rest -> forall b' rest', fills (places best fs max_seq) rs l b' rest' -> b = b' /\ rest = rest').
  { induction 1 as [|rs e l0 i r b rest Hp Hr H IH|rs e l0 Hn]; intros b' rest' H'; inversion H'; subst; try easy.
    - match goal with Hq : places _ _ _ rs e ?j |- _ => assert (j = i) as -> by (eapply D; eassumption) end.
      match goal with Hq : nth_error rs i = Some ?x |- _ => assert (x = r) as -> by congruence end. now apply IH.
    - exfalso. match goal with H1 : forall _, ~ places _ _ _ ?x ?y _, H2 : places _ _ _ ?x ?y _ |- _ => exact (H1 _ H2) end.
    - exfalso. match goal with H1 : forall _, ~ places _ _ _ ?x ?y _, H2 : places _ _ _ ?x ?y _ |- _ => exact (H1 _ H2) end. }
  intros H. revert bs'. induction H as [|l b rest bs Hl H Hp IH]; intros bs' H'; inversion H'; subst; try easy.
  match goal with Hq : fills _ _ _ ?b2 ?r2 |- _ => destruct (F _ _ _ _ H _ _ Hq) as [-> ->] end. f_equal. now apply IH.
Qed.

(** Every element is in exactly one row of one batch: a batch has consecutive elements, and the
    elements of a row are in the order of the stream. *)
Lemma sub_app_r {X} (s l : list X) x : sub s l -> sub (s ++ [x]) (l ++ [x]).
Proof. induction 1; cbn; [apply sub_take, sub_nil|apply sub_skip|apply sub_take]; assumption. Qed.
Lemma sub_app_skip {X} (s l : list X) x : sub s l -> sub s (l ++ [x]).
Proof. induction 1; cbn; [apply sub_skip, sub_nil|apply sub_skip|apply sub_take]; assumption. Qed.
Lemma concat_update {X} (rs : list (list X)) i r e : nth_error rs i = Some r -> Permutation (concat (update_nth i (r ++ [e]) rs)) (concat rs ++ [e]).
Proof.
  revert i. induction rs as [|x rs IH]; intros [|i] H; try easy; cbn in *.
  - injection H as ->. rewrite <- !app_assoc. apply Permutation_app_head, Permutation_app_comm.
  - rewrite <- app_assoc. apply Permutation_app_head. now apply IH.
Qed.
Lemma fills_contents {A M} place (rs : list (list (element A M))) l b rest : fills place rs l b rest -> forall got,
  Permutation (concat rs) got -> Forall (fun r => sub r got) rs ->
  exists c, l = c ++ rest /\ length b = length rs /\ Permutation (concat b) (got ++ c) /\ Forall (fun r => sub r (got ++ c)) b.
Proof.
  induction 1 as [rs|rs e l i r b rest Hp Hr H IH|rs e l Hn]; intros got Hc Hs.
  - exists []. rewrite !app_nil_r. auto.
  - destruct (IH (got ++ [e])) as (c & -> & Hl & Hc' & Hs').
    + now rewrite (concat_update _ _ _ _ Hr), Hc.
    + apply Forall_update_nth; [eapply Forall_impl; [|exact Hs]; intros; now apply sub_app_skip|]. apply sub_app_r. rewrite Forall_forall in Hs. apply Hs. eapply nth_error_In; exact Hr.
    + exists (e :: c). rewrite update_nth_length in Hl. rewrite <- app_assoc in Hc', Hs'. auto.
  - exists []. rewrite !app_nil_r. auto.
Qed.
Theorem C40_every_element_once {A M} place bins (l : list (element A M)) bs : packs place bins l bs ->
  exists cs, concat cs = l /\
    Forall2 (fun c b => length b = bins /\ Permutation (concat b) c /\ Forall (fun r => sub r c) b) cs bs.
Proof.
  induction 1 as [|l b rest bs Hl H Hp (cs & <- & IH)]; [now exists []|].
  destruct (fills_contents _ _ _ _ _ H []) as (c & -> & Hlen & Hc & Hs).
  - clear. induction bins; easy.
  - apply Forall_forall. intros r Hr. apply repeat_spec in Hr as ->. constructor.
  - exists (c :: cs). split; [reflexivity|]. constructor; [|exact IH]. rewrite repeat_length in Hlen. auto.
Qed.
(** The rows emitted are all rows with elements. *)
Theorem C40_all_rows {A M} (fs : list (feature A)) shuffle_bins group order first (bs : list (list (list (element A M)))) :
  row_order shuffle_bins group order -> Permutation (emission fs order first bs) (map (show fs) (concat (map nonempty bs))).
Proof.
  intros Ho. revert first. induction bs as [|b bs IH]; intros first; [easy|]. cbn [emission map concat]. rewrite map_app, IH.
  apply Permutation_app_tail, in_order_perm, Ho.
Qed.

(** Reading back a row. The cells of feature [i]: *)
Definition cells_of {A M} (r : packed_row A M) (i : nat) : list (cell A) :=
  match nth_error (fst r) i with Some (v, s, q) => combine (combine v s) q | None => [] end.
Definition with_id {A} (j : Z) (cs : list (cell A)) : list (cell A) := filter (fun c => snd (fst c) =? j) cs.
(** All elements of a row are inside it. *)
Definition inside {A M} (fs : list (feature A)) (es : list (element A M)) : Prop :=
  forall es1 e es2, es = es1 ++ e :: es2 -> length (fst e) = length fs /\ has_room fs es1 e.

Lemma combine_map3 {A} (cs : list (cell A)) : combine (combine (map (fun c => fst (fst c)) cs) (map (fun c => snd (fst c)) cs)) (map snd cs) = cs.
Proof. induction cs as [|[[x y] z] cs IH]; [easy|]. cbn. f_equal. exact IH. Qed.
Lemma cells_of_show {A M} (fs : list (feature A)) (es : list (element A M)) i f : nth_error fs i = Some f -> cells_of (show fs es) i = layout f (column i es).
Proof.
  unfold cells_of, show. cbn [fst]. assert (G : forall fs i0, nth_error (show_from i0 fs es) i = option_map (fun f => let cs := layout f (column (i0 + i) es) in
    (map (fun c => fst (fst c)) cs, map (fun c => snd (fst c)) cs, map snd cs)) (nth_error fs i)).
  { clear. revert i. induction i as [|i IH]; intros [|g fs] i0; cbn [show_from nth_error option_map]; try easy; [now rewrite Nat.add_0_r|]. rewrite IH. now rewrite Nat.add_succ_r. }
  rewrite G. intros ->. cbn [option_map Nat.add]. apply combine_map3.
Qed.
Lemma with_id_app {A} j (a b : list (cell A)) : with_id j (a ++ b) = with_id j a ++ with_id j b.
Proof. apply filter_app. Qed.
Lemma with_id_blank {A} j (x : A) n : j <> 0 -> with_id j (List.repeat (blank x) n) = [].
Proof. intros H. induction n; [easy|]. unfold with_id. cbn [List.repeat filter blank fst snd]. destruct (Z.eqb_spec 0 j); [lia|exact IHn]. Qed.
Lemma with_id_tokens {A} j i (t : list A) : with_id j (tokens i t) = if Z.of_nat i + 1 =? j then tokens i t else [].
Proof.
  unfold tokens. generalize (zrange 0 (length t)) as z. generalize (Z.of_nat i + 1) as k. intros k. induction t as [|x t IH]; intros z.
  - cbn. now destruct (k =? j).
  - destruct z as [|y z]; [cbn; now destruct (k =? j)|]. cbn [length List.repeat combine with_id filter fst snd].
    fold (with_id j (combine (combine t (List.repeat k (length t))) z)). rewrite IH. now destruct (k =? j).
Qed.
Lemma with_id_segments {A} (f : feature A) : forall ts i j, with_id (Z.of_nat (i + j) + 1) (segments f i ts) =
  match nth_error ts j with Some t => tokens (i + j) t | None => [] end.
Proof.
  induction ts as [|t ts IH]; intros i j; [now destruct j|]. cbn [segments]. unfold segment. rewrite !with_id_app, with_id_blank, app_nil_r, with_id_tokens by lia.
  destruct j as [|j]; cbn [nth_error].
  - rewrite Nat.add_0_r, Z.eqb_refl. specialize (IH (S i)). assert (E : with_id (Z.of_nat i + 1) (segments f (S i) ts) = []).
    { clear. assert (G : forall ts k, (i < k)%nat -> with_id (Z.of_nat i + 1) (segments f k ts) = []).
      { clear ts. induction ts as [|t ts IH]; intros k Hk; [easy|]. cbn [segments]. unfold segment. rewrite !with_id_app, with_id_blank, with_id_tokens, IH by lia.
        destruct (Z.eqb_spec (Z.of_nat k + 1) (Z.of_nat i + 1)); [lia|easy]. }
      apply G. lia. }
    rewrite E. apply app_nil_r.
  - destruct (Z.eqb_spec (Z.of_nat i + 1) (Z.of_nat (i + S j) + 1)); [lia|]. cbn [app]. rewrite <- Nat.add_succ_comm. apply IH.
Qed.

Lemma inside_snoc {A M} (fs : list (feature A)) (es : list (element A M)) e : inside fs (es ++ [e]) -> length (fst e) = length fs /\ has_room fs es e.
Proof. intros H. now apply (H es e []). Qed.
Lemma list_snoc {X} (l : list X) : l = [] \/ exists l' x, l = l' ++ [x].
Proof. destruct l as [|x l] using rev_ind; [now left|right; eauto]. Qed.
Lemma tokens_ids {A} i (t : list A) c : In c (tokens i t) -> snd (fst c) = Z.of_nat i + 1.
Proof.
  intros H. apply (in_map (fun c => snd (fst c))) in H. rewrite tokens_segs in H. now apply repeat_spec in H.
Qed.
Lemma segments_ids {A} (f : feature A) c : forall ts i, In c (segments f i ts) -> c = blank (padding f) \/ (Z.of_nat i < snd (fst c) <= Z.of_nat (i + length ts)).
Proof.
  induction ts as [|t ts IH]; intros i H; [easy|]. cbn [segments] in H. unfold segment in H. rewrite !in_app_iff in H. destruct H as [[H|H]|H].
  - right. rewrite (tokens_ids _ _ _ H). cbn [length]. lia.
  - left. now apply repeat_spec in H.
  - destruct (IH _ H) as [|E]; [now left|right]. cbn [length]. lia.
Qed.
Lemma column_firstn {A M} i k (es : list (element A M)) : column i (firstn k es) = firstn k (column i es).
Proof. unfold column. symmetry. apply firstn_map. Qed.
Lemma taken_prefix {A} (f : feature A) ts j : (0 < alignment f)%nat -> segments f 0 ts = segments f 0 (firstn j ts) ++ segments f (length (firstn j ts)) (skipn j ts).
Proof. intros H. pose proof (segments_app f (firstn j ts) (skipn j ts) 0) as E. rewrite firstn_skipn in E. exact E. Qed.

(** A row tells its elements: feature [i] of the [j]-th element is in the cells with segment id
    j+1, with positions 0, 1, ...; they are consecutive and start at a multiple of the alignment,
    after those of the elements before; all other cells are padding. *)
Theorem C40_unpack {A M} (fs : list (feature A)) (es : list (element A M)) i f :
  (forall f, In f fs -> (0 < alignment f)%nat) -> inside fs es -> nth_error fs i = Some f ->
  length (cells_of (show fs es) i) = capacity f /\
  (forall j e, nth_error es j = Some e ->
    let mine := with_id (Z.of_nat j + 1) (cells_of (show fs es) i) in
    map (fun c => fst (fst c)) mine = nth i (fst e) [] /\ map snd mine = zrange 0 (length mine) /\
    exists o, firstn (length mine) (skipn o (cells_of (show fs es) i)) = mine /\ (exists q, o = q * alignment f)%nat /\
      forall j' e' n, (j' < j)%nat -> nth_error es j' = Some e' -> (o <= n)%nat ->
        forall c, nth_error (cells_of (show fs es) i) n = Some c -> snd (fst c) <> Z.of_nat j' + 1) /\
  (forall c, In c (cells_of (show fs es) i) -> c = blank (padding f) \/ 1 <= snd (fst c) <= Z.of_nat (length es)) /\
  snd (show fs es) = map snd es.
Proof.
  intros Ha Hin Hi. rewrite (cells_of_show _ _ _ _ Hi). pose proof (Ha f (nth_error_In _ _ Hi)) as Haf.
  split; [apply layout_length|]. destruct (list_snoc es) as [->|(es' & el & ->)].
  { split; [intros [|j]; easy|]. split; [|easy]. intros c Hc. left. unfold layout in Hc. cbn [column map segments app] in Hc.
    rewrite repeat_firstn in Hc. now apply repeat_spec in Hc. }
  destruct (inside_snoc _ _ _ Hin) as [_ Hroom]. specialize (Hroom i f Hi). rewrite column_app.
  rewrite layout_snoc by assumption. set (ts := column i es') in *. set (t := nth i (fst el) []) in *. set (n := (capacity f - _)%nat).
  assert (Hts : length ts = length es') by apply column_length.
  assert (Hmine : forall j e, nth_error (es' ++ [el]) j = Some e -> with_id (Z.of_nat j + 1) (segments f 0 ts ++ tokens (length ts) t ++ List.repeat (blank (padding f)) n) = tokens j (nth i (fst e) [])).
  { intros j e He. rewrite !with_id_app, with_id_blank, app_nil_r, with_id_tokens by lia. pose proof (with_id_segments f ts 0 j) as E. cbn [Nat.add] in E. rewrite E.
    destruct (Nat.lt_ge_cases j (length es')) as [Hj|Hj].
    - rewrite nth_error_app1 in He by exact Hj. assert (Ets : nth_error ts j = Some (nth i (fst e) [])) by (unfold ts, column; exact (map_nth_error (fun e => nth i (fst e) []) j es' He)).
      rewrite Ets. destruct (Z.eqb_spec (Z.of_nat (length ts) + 1) (Z.of_nat j + 1)); [lia|]. apply app_nil_r.
    - rewrite nth_error_app2 in He by lia. destruct (j - length es')%nat as [|m] eqn:Ej; [|now destruct m]. injection He as <-. assert (j = length es') as -> by lia.
      rewrite (proj2 (nth_error_None ts _)) by lia. rewrite Hts, Z.eqb_refl. easy. }
  split; [|split; [|easy]].
  - intros j e He. cbn zeta. rewrite (Hmine j e He). rewrite tokens_vals, tokens_poss, tokens_length. split; [easy|]. split; [easy|].
    exists (taken f (column i (firstn j (es' ++ [el])))). rewrite column_firstn, column_app. fold ts t.
    split; [|split; [apply taken_multiple|]].
    + destruct (Nat.lt_ge_cases j (length es')) as [Hj|Hj].
      * rewrite nth_error_app1 in He by exact Hj. rewrite firstn_app. replace (j - length ts)%nat with 0%nat by lia. cbn [firstn]. rewrite app_nil_r.
        rewrite (taken_prefix f ts j Haf), <- app_assoc. rewrite <- (segments_length f 0 (firstn j ts) Haf), skipn_app, skipn_all, Nat.sub_diag. cbn [app skipn].
        assert (Ht : nth_error ts j = Some (nth i (fst e) [])) by (unfold ts, column; exact (map_nth_error (fun e => nth i (fst e) []) j es' He)).
        rewrite (skipn_nth_cons _ _ _ Ht). cbn [segments]. unfold segment. rewrite firstn_length, Nat.min_l by lia. rewrite <- !app_assoc.
        rewrite firstn_app, tokens_length, Nat.sub_diag, firstn_all2 by (rewrite tokens_length; lia). cbn. apply app_nil_r.
      * rewrite nth_error_app2 in He by lia. destruct (j - length es')%nat as [|m] eqn:Ej; [|now destruct m]. injection He as <-. assert (j = length es') as -> by lia.
        rewrite firstn_app, <- Hts, firstn_all, Nat.sub_diag. cbn [firstn]. rewrite app_nil_r. fold t.
        rewrite <- (segments_length f 0 ts Haf), skipn_app, skipn_all, Nat.sub_diag. cbn [app skipn].
        rewrite firstn_app, tokens_length, Nat.sub_diag, firstn_all2 by (rewrite tokens_length; lia). cbn. apply app_nil_r.
    + intros j' e' m Hj' He' Hm c Hc.
      assert (Hin' : In c (skipn (taken f (firstn j (ts ++ [t]))) (segments f 0 ts ++ tokens (length ts) t ++ List.repeat (blank (padding f)) n))).
      { replace m with (taken f (firstn j (ts ++ [t])) + (m - taken f (firstn j (ts ++ [t]))))%nat in Hc by lia. rewrite nth_skipn in Hc. eapply nth_error_In; exact Hc. }
      destruct (Nat.lt_ge_cases j (length es')) as [Hj|Hj].
      * rewrite firstn_app in Hin'. replace (j - length ts)%nat with 0%nat in Hin' by lia. cbn [firstn] in Hin'. rewrite app_nil_r in Hin'.
        rewrite (taken_prefix f ts j Haf), <- app_assoc in Hin'. rewrite <- (segments_length f 0 (firstn j ts) Haf), skipn_app, skipn_all, Nat.sub_diag in Hin'. cbn [app skipn] in Hin'.
        rewrite !in_app_iff in Hin'. rewrite firstn_length, Nat.min_l in Hin' by lia. destruct Hin' as [H|[H|H]].
        -- destruct (segments_ids _ _ _ _ H) as [->|H']; [cbn; lia|lia].
        -- rewrite (tokens_ids _ _ _ H). lia.
        -- apply repeat_spec in H as ->. cbn. lia.
      * assert (j <= length es')%nat by (enough (j < length (es' ++ [el]))%nat by (rewrite app_length in *; cbn in *; lia); apply nth_error_Some; now rewrite He).
        assert (j = length es') as -> by lia.
        rewrite firstn_app, <- Hts, firstn_all, Nat.sub_diag in Hin'. cbn [firstn] in Hin'. rewrite app_nil_r in Hin'.
        rewrite <- (segments_length f 0 ts Haf), skipn_app, skipn_all, Nat.sub_diag in Hin'. cbn [app skipn] in Hin'. rewrite in_app_iff in Hin'. destruct Hin' as [H'|H'].
        -- rewrite (tokens_ids _ _ _ H'). lia.
        -- apply repeat_spec in H' as ->. cbn. lia.
  - intros c Hc. rewrite !in_app_iff in Hc. rewrite app_length. cbn [length]. destruct Hc as [H|[H|H]].
    + destruct (segments_ids _ _ _ _ H) as [|H']; [now left|right]. cbn [Nat.add] in H'. lia.
    + right. rewrite (tokens_ids _ _ _ H). lia.
    + left. now apply repeat_spec in H.
Qed.

(** A source of elements with two features, and a configuration for it. *)
Definition two_features (x : Z) : element Z Z := ([List.repeat x (Z.to_nat (x mod 3) + 1); [x; 10 + x]], x).
Definition source (n : Z) : Iter (element Z Z) := retype two_features (srcz n).
Lemma source_lawful n : (0 < n)%nat -> lawful (source (Z.of_nat n)) (map two_features (zrange 0 n)) true true true.
Proof.
  intros Hn. apply lawful_retype. now apply srcz_lawful.
Qed.
Definition config : list (feature Z) := [mkFeature 5 1 (-1); mkFeature 7 3 (-2)].
Definition backwards (s : Z) (n : nat) : res (list nat) := Ok (rev (seq 0 n)).
Lemma backwards_permutes : permutes backwards.
Proof. intros s n _. exists (rev (seq 0 n)). split; [easy|]. symmetry. apply Permutation_rev. Qed.
Lemma config_usable : usable config 2 (Some 2) 3.
Proof. unfold usable. split; [easy|]. split; [intros f [<-|[<-|[]]]; cbn; lia|]. cbn; lia. Qed.
Lemma config_fits n : Forall (fits_alone config) (map two_features (zrange 0 n)).
Proof.
  apply Forall_forall. intros e He. apply in_map_iff in He as (x & <- & _). split; [easy|].
  intros [|[|[|i]]] f; cbn [nth_error config]; try easy; intros [= <-]; cbn [two_features fst nth capacity length]; [|lia]. rewrite repeat_length.
  pose proof (Z.mod_pos_bound x 3). lia.
Qed.
(** The hypotheses of C40-C42 hold, and these are the rows of five elements: 0 and 1 are in the
    first row of the first batch, 2 and 3 in the second; 4 is in the second batch. *)
Example C40_example :
  (exists it bs order, packing false config 2 (Some 2) backwards 3 true None (source 5) = Ok it /\
    packs (places false config (Some 2)) 2 (map two_features (zrange 0 5)) bs /\ row_order true None order /\
    elements it (emission config order 0 bs) /\ checkpointable it (emission config order 0 bs) true true true) /\
  match packing false config 2 (Some 2) backwards 3 true None (source 5) with
  | Ok it => drain it 20 4 (init it) =
      ([([([2; 2; 2; 3; -1], [1; 1; 1; 2; 0], [0; 1; 2; 0; 0]); ([2; 12; -2; 3; 13; -2; -2], [1; 1; 0; 2; 2; 0; 0], [0; 1; 0; 0; 1; 0; 0])], [2; 3]);
        ([([0; 1; 1; -1; -1], [1; 2; 2; 0; 0], [0; 0; 1; 0; 0]); ([0; 10; -2; 1; 11; -2; -2], [1; 1; 0; 2; 2; 0; 0], [0; 1; 0; 0; 1; 0; 0])], [0; 1]);
        ([([4; 4; -1; -1; -1], [1; 1; 0; 0; 0], [0; 1; 0; 0; 0]); ([4; 14; -2; -2; -2; -2; -2], [1; 1; 0; 0; 0; 0; 0], [0; 1; 0; 0; 0; 0; 0])], [4])], Stop)
  | _ => False
  end.
Proof.
  split; [|vm_compute; reflexivity].
  destruct (packing_lawful false config 2 (Some 2) backwards 3 true None (source 5) _ _ _ _ config_usable backwards_permutes (source_lawful 5 ltac:(lia)) (config_fits 5))
    as (it & bs & order & E & Hbs & Ho & HL).
  exists it, bs, order. split; [exact E|]. split; [exact Hbs|]. split; [exact Ho|]. split; [now apply lawful_elements in HL|now apply lawful_checkpointable].
Qed.

(** ** C41: rows do not overflow *)
Lemma fills_inv {A M} place (P : list (element A M) -> Prop) rs l b rest : fills place rs l b rest ->
  (forall rs e i r, In e l -> place rs e i -> nth_error rs i = Some r -> P r -> P (r ++ [e])) -> Forall P rs -> Forall P b.
Proof.
  induction 1 as [rs|rs e l i r b rest Hp Hr H IH|rs e l Hn]; intros Hstep Hrs; try assumption. apply IH.
  - intros rs' e' i' r' Hin. apply Hstep. now right.
  - apply Forall_update_nth; [exact Hrs|]. apply (Hstep rs e i r); try assumption; [now left|]. rewrite Forall_forall in Hrs. apply Hrs. eapply nth_error_In; exact Hr.
Qed.
Lemma packs_inv {A M} place (P : list (element A M) -> Prop) bins l bs : packs place bins l bs -> P [] ->
  (forall rs e i r, In e l -> place rs e i -> nth_error rs i = Some r -> P r -> P (r ++ [e])) -> forall b r, In b bs -> In r b -> P r.
Proof.
  intros H H0. induction H as [|l b rest bs Hl H Hp IH]; intros Hstep b0 r Hb Hr; [easy|]. destruct Hb as [<-|Hb].
  - enough (Forall P b) as G by (rewrite Forall_forall in G; now apply G). eapply fills_inv; [exact H|exact Hstep|]. apply Forall_forall. intros x Hx. now apply repeat_spec in Hx as ->.
  - apply (IH) with (b := b0); try assumption. intros rs e i r0 He. apply Hstep. destruct (fills_suffix _ _ _ _ _ H) as (n & ->).
    rewrite <- (firstn_skipn n l). apply in_or_app. now right.
Qed.
(** Every element lies inside its row, in all features. *)
Theorem C41_no_overflow {A M} best (fs : list (feature A)) bins max_seq (l : list (element A M)) bs :
  Forall (fits_alone fs) l -> packs (places best fs max_seq) bins l bs ->
  forall b es, In b bs -> In es b -> inside fs es /\
    forall r i f, show fs es = r -> nth_error fs i = Some f -> length (cells_of r i) = capacity f.
Proof.
  intros Hf Hp b es Hb Hes. split.
  - revert b es Hb Hes. apply (packs_inv _ (inside fs) _ _ _ Hp).
    + intros [|]; discriminate.
    + intros rs e i r He Hpl Hr Hin es1 e' es2 E. destruct (list_snoc es2) as [->|(es3 & x & ->)].
      * apply app_inj_tail in E as [-> ->]. split; [rewrite Forall_forall in Hf; apply (Hf _ He)|].
        destruct best; [destruct Hpl as (r' & Hr' & [Hroom _] & _)|destruct Hpl as [(r' & Hr' & Hroom & _) _]]; rewrite Hr in Hr'; injection Hr' as <-; exact Hroom.
      * rewrite app_comm_cons, app_assoc in E. apply app_inj_tail in E as [-> ->]. now apply (Hin es1 e' es3).
  - intros r i f <- Hi. rewrite (cells_of_show _ _ _ _ Hi). apply layout_length.
Qed.
(** max_sequences_per_bin: always with first fit, and with best fit if every element has a
    non-empty feature. *)
Theorem C41_max_sequences {A M} best (fs : list (feature A)) bins m (l : list (element A M)) bs :
  1 <= m -> packs (places best fs (Some m)) bins l bs ->
  best = false \/ Forall (fun e => exists i, (i < length fs)%nat /\ nth i (fst e) [] <> []) l ->
  forall b es, In b bs -> In es b -> Z.of_nat (length es) <= m.
Proof.
  intros Hm Hp Hg. apply (packs_inv _ (fun es => Z.of_nat (length es) <= m) _ _ _ Hp); [cbn; lia|].
  intros rs e i r He Hpl Hr _. assert (Hlt : (length r < Z.to_nat m)%nat).
  { destruct best.
    - destruct Hg as [|Hg]; [easy|]. destruct Hpl as (r' & Hr' & [_ [Hb|[_ Hz]]] & _); [assert (r' = r) as -> by congruence; exact Hb|].
      rewrite Forall_forall in Hg. destruct (Hg e He) as (k & Hk & Hne). now rewrite Hz in Hne.
    - destruct Hpl as [(r' & Hr' & _ & Hb) _]. assert (r' = r) as -> by congruence. exact Hb. }
  rewrite app_length. cbn [length]. lia.
Qed.
(** With best fit, elements without any value are all put into the first row without a value. *)
Definition no_values (n : Z) : Iter (element Z Z) := retype (fun x => ([@nil Z], x)) (srcz n).
Theorem C41_max_sequences_refuted :
  exists (fs : list (feature Z)) (l : list (element Z Z)), usable fs 1 (Some 1) 0 /\ lawful (no_values 3) l true true true /\ Forall (fits_alone fs) l /\
  match packing true fs 1 (Some 1) backwards 0 false None (no_values 3) with
  | Ok it => exists r, drain it 20 2 (init it) = ([r], Stop) /\ length (snd r) = 3%nat
  | _ => False
  end.
Proof.
  exists [mkFeature 4 1 0], [([[]], 0); ([[]], 1); ([[]], 2)]. split; [|split; [|split]].
  - split; [easy|]. split; [intros f [<-|[]]; cbn; lia|]. lia.
  - exact (lawful_retype (fun x => ([@nil Z], x)) _ _ _ _ _ (srcz_lawful 3 ltac:(lia))).
  - repeat constructor; intros [|[|i]] f; cbn; try easy; intros [= <-]; cbn; lia.
  - exists ([([0; 0; 0; 0], [0; 0; 0; 0], [0; 0; 0; 0])], [0; 1; 2]). vm_compute. split; reflexivity.
Qed.
(** An element longer than a row raises ValueError, after the rows of the batches completed
    before it. *)
Theorem C41_too_long {A M} best (fs : list (feature A)) bins max_seq permuted seed shuffle_bins group (p : Iter (element A M)) l bad tail fin used json :
  usable fs bins max_seq seed -> permutes permuted -> lawful p (l ++ bad :: tail) fin used json -> Forall (fits_alone fs) l ->
  length (fst bad) = length fs -> ~ fits_alone fs bad ->
  exists it bs order, packing best fs bins max_seq permuted seed shuffle_bins group p = Ok it /\
    packs (places best fs max_seq) bins l bs /\ row_order shuffle_bins group order /\
    exists N, forall fuel, (N <= fuel)%nat ->
      let rows := emission fs order 0 (removelast bs) in drain it fuel (length rows + 1) (init it) = (rows, Fail ValueError).
Proof.
  intros Hu Hp (N & rep & crep & L) Hf Hlb Hbad. pose proof (strategy_of (M := M) best fs bins max_seq seed Hu) as St.
  destruct Hu as (Hfs & Ha & Hb & Hm & Hs). destruct (order_exists permuted seed shuffle_bins group Hp Hs) as (order & Ho & Eo).
  destruct (packs_exist fs bins _ _ St Hb l Hf) as (bs & Hbs).
  pose proof (Law_prefix p _ _ _ _ _ _ _ (length l) L) as L'.
  rewrite firstn_app, firstn_all, Nat.sub_diag in L'. cbn [firstn] in L'. rewrite app_nil_r in L'.
  eexists _, bs, order. split.
  { unfold packing, pack_dataset. destruct max_seq as [m|]; [|reflexivity]. destruct (Z.leb_spec m 0); [lia|reflexivity]. }
  split; [exact Hbs|]. split; [exact Ho|]. exists (N + length l + 1)%nat. intros fuel Hfu. cbn zeta.
  pose proof (pack_law fs bins _ _ St Hb permuted seed shuffle_bins group order Eo (fun T rows => proj1 (Ho T rows)) p l false used json N _ crep L' Hf bs Hbs) as PL.
  unfold out_rows, closed in PL. match goal with |- drain ?it _ _ _ = (?rows, _) => set (rs := rows) in *;
    destruct (drain_from it rs false used json _ _ _ fuel PL Hfu (length rs) (init it) 0%nat (law_init PL) eq_refl) as (s' & Hr & Hd) end.
  rewrite Hd. cbn [skipn drain].
  match goal with |- context [next ?it fuel s'] => assert (E : fst (next it fuel s') = Fail ValueError) end.
  { apply (bad_next fs bins _ _ St Hb permuted seed shuffle_bins group order Eo (fun T rows => proj1 (Ho T rows)) p l false used json N _ crep L' Hf bs bad); try assumption; try easy.
    - intros b. destruct best; [now apply best_fit_bad|now apply first_fit_bad].
    - intros fuel' ps HN [Hrep _]. destruct (law_next L fuel' ps (length l) bad HN Hrep) as (ps' & E & _); [rewrite nth_error_app2, Nat.sub_diag by lia; easy|eauto]. }
  match goal with |- context [next ?it fuel s'] => destruct (next it fuel s') as [o s2] end. cbn in E. subst o. cbn. now rewrite app_nil_r.
Qed.

(** Element 2 of the source is longer than 2. *)
Example C41_example :
  exists it bs order, packing true [mkFeature 2 1 (-1); mkFeature 7 3 (-2)] 2 None backwards 3 false None (source 5) = Ok it /\
    packs (places true [mkFeature 2 1 (-1); mkFeature 7 3 (-2)] None) 2 (map two_features [0; 1]) bs /\ row_order false None order /\
    exists N, forall fuel, (N <= fuel)%nat ->
      let rows := emission [mkFeature 2 1 (-1); mkFeature 7 3 (-2)] order 0 (removelast bs) in drain it fuel (length rows + 1) (init it) = (rows, Fail ValueError).
Proof.
  apply C41_too_long with (bad := two_features 2) (tail := map two_features [3; 4]) (fin := true) (used := true) (json := true).
  - split; [easy|]. split; [intros f [<-|[<-|[]]]; cbn; lia|]. lia.
  - exact backwards_permutes.
  - exact (source_lawful 5 ltac:(lia)).
  - apply Forall_forall. intros e [<-|[<-|[]]]; (split; [easy|]); intros [|[|[|i]]] f; cbn [nth_error]; try easy; intros [= <-]; vm_compute; lia.
  - easy.
  - intros [_ H]. specialize (H 0%nat _ eq_refl). vm_compute in H. lia.
Qed.

(** ** C42: checkpoints *)
(** Every history of reading, saving and restoring sees the rows as a list, in the same order
    in every run. *)
Theorem C42_checkpoints {A M} best (fs : list (feature A)) bins max_seq permuted seed shuffle_bins group (p : Iter (element A M)) l fin used json :
  usable fs bins max_seq seed -> permutes permuted -> lawful p l fin used json -> Forall (fits_alone fs) l ->
  exists it bs order, packing best fs bins max_seq permuted seed shuffle_bins group p = Ok it /\
    packs (places best fs max_seq) bins l bs /\ row_order shuffle_bins group order /\
    checkpointable it (emission fs order 0 (if fin then bs else removelast bs)) fin used json.
Proof.
  intros Hu Hp HL Hf. destruct (packing_lawful best fs bins max_seq permuted seed shuffle_bins group p l fin used json Hu Hp HL Hf) as (it & bs & order & E & Hbs & Ho & Hlaw).
  exists it, bs, order. split; [exact E|]. split; [exact Hbs|]. split; [exact Ho|]. now apply lawful_checkpointable.
Qed.
