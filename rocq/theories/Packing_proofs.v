(** Packing: the buffers hold what PackingSpec.v says, and the iterator emits them. *)
From Coq Require Import Permutation Sorted.
From Verif Require Import Base ListFacts MapDatasets Iter IterSpec IterLaw Packing PackingSpec.

(** ** Lists *)
Lemma combine_app' {X Y} (a a' : list X) (b b' : list Y) : length a = length b -> combine (a ++ a') (b ++ b') = combine a b ++ combine a' b'.
Proof. revert b. induction a as [|x a IH]; intros [|y b] H; try easy. cbn in *. rewrite IH by lia. easy. Qed.
Lemma map_fst_combine {X Y} (a : list X) (b : list Y) : length a = length b -> map fst (combine a b) = a.
Proof. revert b. induction a as [|x a IH]; intros [|y b] H; try easy. cbn in *. now rewrite IH by lia. Qed.
Lemma map_snd_combine {X Y} (a : list X) (b : list Y) : length a = length b -> map snd (combine a b) = b.
Proof. revert b. induction a as [|x a IH]; intros [|y b] H; try easy. cbn in *. now rewrite IH by lia. Qed.
Lemma repeat_firstn {X} (x : X) n k : firstn n (List.repeat x k) = List.repeat x (Nat.min n k).
Proof. revert k. induction n as [|n IH]; intros [|k]; cbn; try easy. now rewrite IH. Qed.
Lemma repeat_skipn {X} (x : X) n k : skipn n (List.repeat x k) = List.repeat x (k - n).
Proof. revert k. induction n as [|n IH]; intros [|k]; cbn; try easy. Qed.
Lemma skipn_firstn' {X} (l : list X) n k : skipn n (firstn k l) = firstn (k - n) (skipn n l).
Proof. revert l k. induction n as [|n IH]; intros l k; [now rewrite Nat.sub_0_r|]. destruct l, k; cbn; try reflexivity; try (now rewrite firstn_nil); apply IH. Qed.

Lemma up_to_ge a n : (0 < a)%nat -> (n <= up_to a n)%nat.
Proof.
  intros Ha. unfold up_to. pose proof (Nat.div_mod (n + a - 1) a ltac:(lia)) as H. pose proof (Nat.mod_upper_bound (n + a - 1) a ltac:(lia)) as H'.
  revert H H'. generalize ((n + a - 1) / a)%nat ((n + a - 1) mod a)%nat. intros q r. nia.
Qed.
Lemma up_to_0 a : (0 < a)%nat -> up_to a 0 = 0%nat.
Proof. intros Ha. unfold up_to. cbn. now rewrite Nat.div_small by lia. Qed.
(** Rounding up after a multiple of the alignment. *)
Lemma up_to_plus a q n : (0 < a)%nat -> up_to a (q * a + n) = (q * a + up_to a n)%nat.
Proof.
  intros Ha. unfold up_to. replace (q * a + n + a - 1)%nat with (q * a + (n + a - 1))%nat by lia.
  rewrite Nat.div_add_l by lia. lia.
Qed.
Lemma taken_multiple {A} (f : feature A) ts : exists q, taken f ts = (q * alignment f)%nat.
Proof.
  unfold taken. induction ts as [|t ts (q & IH)]; [exists 0%nat; easy|]. cbn [map list_sum fold_right].
  unfold list_sum in *. cbn [fold_right map]. rewrite IH. unfold up_to. exists ((length t + alignment f - 1) / alignment f + q)%nat. lia.
Qed.
Lemma taken_app {A} (f : feature A) ts t : taken f (ts ++ [t]) = (taken f ts + up_to (alignment f) (length t))%nat.
Proof. unfold taken. rewrite map_app, list_sum_app. cbn. lia. Qed.
Lemma taken_round {A} (f : feature A) ts t : (0 < alignment f)%nat ->
  up_to (alignment f) (taken f ts + length t) = taken f (ts ++ [t]).
Proof. intros Ha. rewrite taken_app. destruct (taken_multiple f ts) as (q & E). rewrite E. now apply up_to_plus. Qed.

Lemma tokens_length {A} i (t : list A) : length (tokens i t) = length t.
Proof. unfold tokens, cell. rewrite !combine_length, repeat_length, zrange_length. lia. Qed.
Lemma segment_length {A} (f : feature A) i t : (0 < alignment f)%nat -> length (segment f i t) = up_to (alignment f) (length t).
Proof. intros Ha. unfold segment. rewrite app_length, tokens_length, repeat_length. pose proof (up_to_ge _ (length t) Ha). lia. Qed.
Lemma segments_length {A} (f : feature A) i ts : (0 < alignment f)%nat -> length (segments f i ts) = taken f ts.
Proof.
  intros Ha. revert i. induction ts as [|t ts IH]; intros i; [easy|]. cbn [segments]. rewrite app_length, segment_length, IH by exact Ha. easy.
Qed.
Lemma segments_app {A} (f : feature A) ts ts' i : segments f i (ts ++ ts') = segments f i ts ++ segments f (i + length ts) ts'.
Proof.
  revert i. induction ts as [|t ts IH]; intros i; cbn [segments app length]; [now rewrite Nat.add_0_r|].
  rewrite IH, <- app_assoc. do 3 f_equal. lia.
Qed.
Lemma layout_length {A} (f : feature A) ts : length (layout f ts) = capacity f.
Proof. unfold layout. rewrite firstn_length, app_length, repeat_length. lia. Qed.
(** Writing the next sequence into a row. *)
Lemma layout_add {A} (f : feature A) ts t : (0 < alignment f)%nat -> (taken f ts + length t <= capacity f)%nat ->
  layout f (ts ++ [t]) = firstn (taken f ts) (layout f ts) ++ tokens (length ts) t ++ skipn (taken f ts + length t) (layout f ts).
Proof.
  intros Ha Hc. set (u := taken f ts) in *. set (c := capacity f) in *. set (S0 := segments f 0 ts).
  assert (HS : length S0 = u) by (apply segments_length; exact Ha).
  assert (E1 : firstn u (layout f ts) = S0).
  { unfold layout. fold c S0. rewrite firstn_firstn, Nat.min_l by lia. rewrite firstn_app, <- HS, firstn_all, Nat.sub_diag. cbn. apply app_nil_r. }
  assert (E2 : skipn (u + length t) (layout f ts) = List.repeat (blank (padding f)) (c - (u + length t))).
  { unfold layout. fold c S0. rewrite skipn_firstn', skipn_app, skipn_all2 by lia. cbn [app]. rewrite HS, repeat_skipn, repeat_firstn. f_equal. lia. }
  rewrite E1, E2. unfold layout. fold c. rewrite segments_app. fold S0. cbn [segments Nat.add]. rewrite app_nil_r.
  unfold segment. rewrite <- !app_assoc. rewrite firstn_app, HS, firstn_all2 by lia. f_equal.
  rewrite firstn_app, tokens_length, firstn_all2 by (rewrite tokens_length; lia). f_equal.
  rewrite <- repeat_app, repeat_firstn. f_equal. lia.
Qed.

Lemma layout_snoc {A} (f : feature A) ts t : (0 < alignment f)%nat -> (taken f ts + length t <= capacity f)%nat ->
  layout f (ts ++ [t]) = segments f 0 ts ++ tokens (length ts) t ++ List.repeat (blank (padding f)) (capacity f - (taken f ts + length t)).
Proof.
  intros Ha Hc. assert (HS : length (segments f 0 ts) = taken f ts) by (apply segments_length; exact Ha).
  unfold layout. rewrite segments_app. cbn [segments Nat.add]. rewrite app_nil_r.
  unfold segment. rewrite <- !app_assoc. rewrite firstn_app, HS, firstn_all2 by lia. f_equal.
  rewrite firstn_app, tokens_length, firstn_all2 by (rewrite tokens_length; lia). f_equal.
  rewrite <- repeat_app, repeat_firstn. f_equal. lia.
Qed.

(** ** The buffers *)
Section Buffers.
Context {A M : Type}.
Variable fs : list (feature A).
Variable max_seq : option nat.
Notation capacities := (map capacity fs).
Notation aligns := (map alignment fs).
Notation pads := (map padding fs).
Hypothesis Halign : forall f, In f fs -> (0 < alignment f)%nat.
Notation element := (element A M).

Definition buffer (f : feature A) (ts : list (list A)) : fbuf A :=
  let cs := layout f ts in mkF (map (fun c => fst (fst c)) cs) (map (fun c => snd (fst c)) cs) (map snd cs) (taken f ts).
Fixpoint buffers (i : nat) (fs : list (feature A)) (es : list element) : list (fbuf A) :=
  match fs with [] => [] | f :: fs' => buffer f (column i es) :: buffers (S i) fs' es end.
Definition row_of (es : list element) : row A M := mkRow (buffers 0 fs es) (length es) (map snd es).

Lemma buffer_empty (f : feature A) : buffer f [] = mkF (List.repeat (padding f) (capacity f)) (List.repeat 0 (capacity f)) (List.repeat 0 (capacity f)) 0.
Proof.
  unfold buffer, layout. cbn [segments app taken map]. rewrite repeat_firstn, Nat.min_id. f_equal; generalize (capacity f) as n; induction n; cbn; congruence.
Qed.
Lemma buffers_nil : forall fs i, buffers i fs [] =
  map (fun cp => mkF (List.repeat (snd cp) (fst cp)) (List.repeat 0 (fst cp)) (List.repeat 0 (fst cp)) 0) (combine (map capacity fs) (map padding fs)).
Proof. clear. induction fs as [|f fs' IH]; intros i; [easy|]. cbn [buffers map combine fst snd]. rewrite <- (IH (S i)). unfold column; cbn [map]. now rewrite buffer_empty. Qed.
Lemma row_of_nil : row_of [] = empty_row capacities pads.
Proof. unfold row_of, empty_row. f_equal. apply buffers_nil. Qed.
Lemma batch_nil bins : map row_of (List.repeat [] bins) = empty_batch bins capacities pads.
Proof. unfold empty_batch. induction bins as [|n IH]; [easy|]. cbn [List.repeat map]. now rewrite IH, row_of_nil. Qed.
Lemma emit_row_of es : emit_row (row_of es) = show fs es.
Proof.
  unfold emit_row, row_of, show. cbn [r_feats r_meta]. f_equal. generalize 0%nat. clear Halign. induction fs as [|f fs' IH]; intros i; [easy|].
  cbn [buffers map show_from buffer f_vals f_segs f_poss]. now rewrite IH.
Qed.
Lemma column_app i (es : list element) e : column i (es ++ [e]) = column i es ++ [nth i (fst e) []].
Proof. unfold column. now rewrite map_app. Qed.
Lemma column_length i (es : list element) : length (column i es) = length es.
Proof. unfold column. apply map_length. Qed.

Lemma assign_layout {X} (g : cell A -> X) (f : feature A) ts t v : (0 < alignment f)%nat -> (taken f ts + length t <= capacity f)%nat ->
  map g (tokens (length ts) t) = v ->
  slice_assign (taken f ts) v (map g (layout f ts)) = Ok (map g (layout f (ts ++ [t]))).
Proof.
  intros Ha Hc Hv. assert (Hl : length v = length t) by (rewrite <- Hv, map_length; apply tokens_length).
  unfold slice_assign. rewrite map_length, layout_length, Hl. rewrite (proj2 (Nat.leb_le _ _)) by exact Hc.
  rewrite layout_add by assumption. rewrite !map_app, firstn_map, skipn_map. now rewrite Hv.
Qed.
Lemma tokens_vals i (t : list A) : map (fun c => fst (fst c)) (tokens i t) = t.
Proof.
  unfold tokens, cell. rewrite <- (map_map fst fst), !map_fst_combine; try easy; rewrite ?combine_length, ?repeat_length, ?zrange_length; lia.
Qed.
Lemma tokens_segs i (t : list A) : map (fun c => snd (fst c)) (tokens i t) = List.repeat (Z.of_nat i + 1) (length t).
Proof.
  unfold tokens, cell. rewrite <- (map_map fst snd), map_fst_combine, map_snd_combine; try easy; rewrite ?combine_length, ?repeat_length, ?zrange_length; lia.
Qed.
Lemma tokens_poss i (t : list A) : map snd (tokens i t) = zrange 0 (length t).
Proof. unfold tokens, cell. rewrite map_snd_combine; try easy; rewrite ?combine_length, ?repeat_length, ?zrange_length; lia. Qed.

Lemma add_features_ok (e : element) es : forall fs' i,
  (forall f, In f fs' -> (0 < alignment f)%nat) -> (length (fst e) = i + length fs')%nat ->
  (forall k f, nth_error fs' k = Some f -> (taken f (column (i + k) es) + length (nth (i + k) (fst e) []) <= capacity f)%nat) ->
  add_features (Z.of_nat (length es) + 1) (skipn i (fst e)) (map alignment fs') (buffers i fs' es) = Ok (buffers i fs' (es ++ [e])).
Proof.
  induction fs' as [|f fs' IH]; intros i Ha Hl Hr.
  - cbn [length] in Hl. rewrite skipn_all2 by lia. reflexivity.
  - cbn [length] in Hl. assert (Hi : nth_error (fst e) i = Some (nth i (fst e) [])) by (apply nth_error_nth'; lia).
    rewrite (skipn_nth_cons _ _ _ Hi). cbn [map buffers add_features buffer f_free f_vals f_segs f_poss].
    pose proof (Ha f (or_introl eq_refl)) as Haf. specialize (Hr 0%nat f eq_refl) as Hf. rewrite Nat.add_0_r in Hf.
    destruct (Nat.eqb_spec (alignment f) 0); [lia|]. set (t := nth i (fst e) []) in *.
    rewrite (assign_layout _ f (column i es) t) by (try assumption; rewrite column_length; apply tokens_vals). cbn [bind].
    rewrite (assign_layout _ f (column i es) t) by (try assumption; rewrite column_length; apply tokens_segs). cbn [bind].
    rewrite (assign_layout _ f (column i es) t) by (try assumption; rewrite column_length; apply tokens_poss). cbn [bind].
    rewrite IH; [| | |].
    + cbn [bind buffers]. rewrite column_app. fold t. unfold buffer. do 2 f_equal. f_equal. now apply taken_round.
    + intros; apply Ha; now right.
    + lia.
    + intros k g Hg. specialize (Hr (S k) g Hg). now rewrite Nat.add_succ_r in Hr.
Qed.
Lemma add_element_ok e es : length (fst e) = length fs -> has_room fs es e -> add_element aligns e (row_of es) = Ok (row_of (es ++ [e])).
Proof.
  intros Hl Hr. unfold add_element, row_of. cbn [r_n r_feats r_meta].
  pose proof (add_features_ok e es fs 0%nat Halign ltac:(lia) Hr) as H. cbn [skipn] in H. rewrite H. cbn [bind].
  rewrite app_length, map_app. cbn. f_equal.
Qed.
Lemma add_to_batch_ok e rows i r : length (fst e) = length fs -> nth_error rows i = Some r -> has_room fs r e ->
  add_to_batch aligns e i (map row_of rows) = Ok (map row_of (update_nth i (r ++ [e]) rows)).
Proof.
  intros Hl Hi Hr. unfold add_to_batch. rewrite nth_error_map, Hi. cbn [option_map]. rewrite add_element_ok by assumption. cbn [bind]. f_equal.
  revert i Hi. induction rows as [|x rows IH]; intros [|i] Hi; try easy. cbn in *. now rewrite IH.
Qed.

(** ** The choice of the row *)
Lemma too_long_false (e : element) : fits_alone fs e -> too_long capacities e = false /\ same_structure capacities e = true.
Proof.
  intros [Hl H]. split.
  - apply not_true_iff_false. intros E. apply existsb_exists in E as ([v c] & Hin & E). apply Nat.ltb_lt in E. cbn in E.
    apply In_nth_error in Hin as (k & Hk). revert k Hk H Hl E. generalize (fst e). clear Halign. induction fs as [|f fs' IH]; intros l k Hk H Hl E.
    + cbn in Hk. now destruct l, k.
    + destruct l as [|x l]; [now destruct k|]. destruct k as [|k]; cbn in Hk.
      * injection Hk as -> <-. specialize (H 0%nat f eq_refl). cbn in H. lia.
      * apply (IH l k Hk); [|cbn in Hl; lia|exact E]. intros i g Hg. apply (H (S i) g Hg).
  - unfold same_structure. apply Nat.eqb_eq. now rewrite map_length.
Qed.
Lemma too_long_true (e : element) : length (fst e) = length fs -> ~ fits_alone fs e -> too_long capacities e = true.
Proof.
  intros Hl H. apply not_false_iff_true. intros E. apply H. split; [exact Hl|]. unfold too_long in E.
  clear H. revert Hl E. generalize (fst e). clear Halign. induction fs as [|f fs' IH]; intros l Hl E i g Hg; [now destruct i|].
  destruct l as [|x l]; [easy|]. cbn [map combine existsb] in E. apply orb_false_iff in E as [E1 E2]. apply Nat.ltb_ge in E1. cbn in E1, Hl.
  destruct i as [|i]; cbn in Hg |- *; [injection Hg as <-; exact E1|]. apply (IH l); auto.
Qed.
(** A check over the features. *)
Lemma forall_features {X} (mk : list A -> nat -> fbuf A -> X) (P : X -> bool) (e : element) es (Q : nat -> feature A -> Prop) :
  length (fst e) = length fs ->
  (forall i f, nth_error fs i = Some f -> P (mk (nth i (fst e) []) (capacity f) (buffer f (column i es))) = true <-> Q i f) ->
  forallb P (map (fun '(v, c, f) => mk v c f) (combine (combine (fst e) capacities) (buffers 0 fs es))) = true <->
  (forall i f, nth_error fs i = Some f -> Q i f).
Proof.
  intros Hl H.
  assert (G : forall fs' i, (length (fst e) = i + length fs')%nat ->
    (forall k f, nth_error fs' k = Some f -> P (mk (nth (i + k) (fst e) []) (capacity f) (buffer f (column (i + k) es))) = true <-> Q (i + k)%nat f) ->
    forallb P (map (fun '(v, c, f) => mk v c f) (combine (combine (skipn i (fst e)) (map capacity fs')) (buffers i fs' es))) = true <->
    (forall k f, nth_error fs' k = Some f -> Q (i + k)%nat f)).
  { clear. induction fs' as [|f fs' IH]; intros i Hl H.
    - cbn [buffers map]. rewrite combine_nil. destruct (skipn i (fst e)); cbn; (split; [intros _ [|k]; easy|easy]).
    - cbn [length] in Hl. assert (Hi : nth_error (fst e) i = Some (nth i (fst e) [])) by (apply nth_error_nth'; lia).
      rewrite (skipn_nth_cons _ _ _ Hi). cbn [map combine buffers forallb]. rewrite andb_true_iff.
      pose proof (H 0%nat f eq_refl) as H0. rewrite Nat.add_0_r in H0. rewrite H0.
      rewrite (IH (S i)); [|lia|].
      + split.
        * intros [Hq Hr] [|k] g Hg; cbn in Hg; [injection Hg as <-; now rewrite Nat.add_0_r|]. rewrite Nat.add_succ_r. now apply Hr.
        * intros Hq. split; [specialize (Hq 0%nat f eq_refl); now rewrite Nat.add_0_r in Hq|]. intros k g Hg. specialize (Hq (S k) g Hg). now rewrite Nat.add_succ_r in Hq.
      + intros k g Hg. specialize (H (S k) g Hg). now rewrite Nat.add_succ_r in H. }
  apply (G fs 0%nat); [lia|exact H].
Qed.

Notation row := (list element).
Notation rows := (list row).
Hypothesis Hfs : fs <> [].

Lemma features_exist : exists f, nth_error fs 0 = Some f.
Proof. destruct fs as [|f fs']; [easy|]. now exists f. Qed.
Lemma below_max_spec (r : row) : match max_seq with None => true | Some m => Nat.ltb (length r) m end = true <-> below_max max_seq r.
Proof. unfold below_max. destruct max_seq; [apply Nat.ltb_lt|easy]. Qed.
Lemma features_fit_spec (e : element) (r : row) : length (fst e) = length fs ->
  forallb (fun x => x) (features_fit capacities max_seq e (row_of r)) = true <-> has_room fs r e /\ below_max max_seq r.
Proof.
  intros Hl. unfold features_fit, row_of. cbn [r_feats r_n].
  pose proof (forall_features (fun v c f => Nat.leb (length v + f_free f) c && match max_seq with None => true | Some m => Nat.ltb (length r) m end)
    (fun x => x) e r (fun i f => (taken f (column i r) + length (nth i (fst e) []) <= capacity f)%nat /\ below_max max_seq r) Hl) as H.
  rewrite H.
  - unfold has_room. split.
    + intros G. split; [intros i f Hi; now apply G|]. destruct features_exist as (f & Hf). now apply (G _ _ Hf).
    + intros [G G'] i f Hi. auto.
  - intros i f Hi. cbn [buffer f_free]. rewrite andb_true_iff, below_max_spec, Nat.leb_le. now rewrite Nat.add_comm.
Qed.

Lemma first_true_some l i : first_true l = Some i <-> nth_error l i = Some true /\ forall j, (j < i)%nat -> nth_error l j = Some false.
Proof.
  revert i. induction l as [|x l IH]; intros i; cbn [first_true].
  - split; [easy|]. intros [H _]. now destruct i.
  - destruct x; [|destruct (first_true l) as [k|] eqn:E]; cbn [option_map].
    + split; [intros [= <-]; split; [easy|lia]|]. intros [H H']. destruct i as [|i]; [easy|]. now specialize (H' 0%nat ltac:(lia)).
    + split.
      * intros [= <-]. destruct (proj1 (IH k) eq_refl) as [H H']. split; [easy|]. intros [|j] Hj; [easy|]. apply H'. lia.
      * intros [H H']. destruct i as [|i]; [easy|]. f_equal. f_equal. enough (Some k = Some i) by congruence. apply IH. split; [easy|]. intros j Hj. apply (H' (S j)). lia.
    + split; [easy|]. intros [H H']. destruct i as [|i]; [easy|]. enough (None = Some i) by easy. apply IH. split; [easy|]. intros j Hj. apply (H' (S j)). lia.
Qed.
Lemma first_true_none l : first_true l = None -> forall i, nth_error l i <> Some true.
Proof.
  induction l as [|x l IH]; intros H i; [now destruct i|]. destruct x; [easy|]. destruct i as [|i]; [easy|]. cbn in *.
  destruct (first_true l); [easy|]. now apply IH.
Qed.

Lemma first_fit_bad (e : element) b : length (fst e) = length fs -> ~ fits_alone fs e -> first_fit capacities aligns max_seq e b = Raise ValueError.
Proof.
  intros Hl H. unfold first_fit. assert (E : same_structure capacities e = true) by (unfold same_structure; rewrite map_length; now apply Nat.eqb_eq). rewrite E.
  now rewrite too_long_true.
Qed.
Lemma best_fit_bad (e : element) b : length (fst e) = length fs -> ~ fits_alone fs e -> best_fit capacities aligns max_seq e b = Raise ValueError.
Proof.
  intros Hl H. unfold best_fit. assert (E : same_structure capacities e = true) by (unfold same_structure; rewrite map_length; now apply Nat.eqb_eq). rewrite E.
  now rewrite too_long_true.
Qed.
(** What the rest of the proof needs of a strategy. *)
Record strategy (try_add : element -> list (Packing.row A M) -> res (option (list (Packing.row A M)))) (place : rows -> element -> nat -> Prop) : Prop := {
  so_det : forall rs e i j, place rs e i -> place rs e j -> i = j;
  so_step : forall rs e, rs <> [] -> fits_alone fs e ->
    (exists i r, place rs e i /\ nth_error rs i = Some r /\ try_add e (map row_of rs) = Ok (Some (map row_of (update_nth i (r ++ [e]) rs)))) \/
    ((forall i, ~ place rs e i) /\ try_add e (map row_of rs) = Ok None);
  so_row : forall rs e i, place rs e i -> exists r, nth_error rs i = Some r /\ has_room fs r e;
  so_prefix : forall rs e i j, fits_alone fs e -> place rs e i -> nth_error rs i = Some [] -> (j < i)%nat -> nth_error rs j <> Some [];
  so_empty : forall rs e i, fits_alone fs e -> nth_error rs i = Some [] -> exists j, place rs e j;
}.
Lemma fits_has_room (e : element) : fits_alone fs e -> has_room fs [] e.
Proof. intros [_ H] i f Hi. cbn. now apply H. Qed.

Lemma first_fit_det (rs : rows) e i j : first_fit_place fs max_seq rs e i -> first_fit_place fs max_seq rs e j -> i = j.
Proof.
  intros [(r & Hr & H1) H2] [(r' & Hr' & H1') H2']. destruct (lt_eq_lt_dec i j) as [[H|H]|H]; [|exact H|].
  - exfalso. now apply (H2' i r H Hr).
  - exfalso. now apply (H2 j r' H Hr').
Qed.
Lemma first_fit_strategy : match max_seq with Some m => (1 <= m)%nat | None => True end ->
  strategy (first_fit capacities aligns max_seq) (first_fit_place fs max_seq).
Proof.
  intros Hm. assert (He : forall e : element, fits_alone fs e -> has_room fs [] e /\ below_max max_seq (@nil element)).
  { intros e H. split; [now apply fits_has_room|]. unfold below_max. destruct max_seq; [cbn; lia|easy]. }
  split.
  - apply first_fit_det.
  - intros rs e Hne Hf. destruct (too_long_false e Hf) as [E1 E2]. unfold first_fit. rewrite E1, E2. cbn [negb].
    rewrite map_map. pose proof (proj1 Hf) as Hl. pose proof (fun r => features_fit_spec e r Hl) as Hsp.
    destruct (first_true _) as [i|] eqn:E.
    + left. apply first_true_some in E as [E E']. rewrite nth_error_map in E. destruct (nth_error rs i) as [r|] eqn:Hi; [|easy]. cbn in E. injection E as E.
      apply Hsp in E. exists i, r. split; [|split; [easy|]].
      * split; [exists r; easy|]. intros j r' Hj Hr' Hc. specialize (E' j Hj). rewrite nth_error_map, Hr' in E'. cbn in E'. apply Hsp in Hc. congruence.
      * rewrite (add_to_batch_ok e rs i r Hl Hi) by easy. easy.
    + right. pose proof (first_true_none _ E) as Hn. split.
      * intros i [(r & Hr & Hc) _]. apply (Hn i). rewrite nth_error_map, Hr. cbn. f_equal. now apply Hsp.
      * destruct rs as [|r rs]; [easy|]. specialize (Hn 0%nat). cbn in Hn. cbn [map existsb].
        assert (existsb negb (features_fit capacities max_seq e (row_of r)) = true) as ->; [|easy].
        destruct (forallb (fun x => x) (features_fit capacities max_seq e (row_of r))) eqn:F; [easy|].
        apply existsb_exists. clear - F. induction (features_fit capacities max_seq e (row_of r)) as [|x xs IH]; [easy|].
        destruct x; [|exists false; split; [now left|easy]]. cbn in F. destruct (IH F) as (y & Hy & Hy'). exists y. split; [now right|easy].
  - intros rs e i [(r & Hr & H & _) _]. eauto.
  - intros rs e i j Hf [_ H] _ Hj Hr. now apply (H j [] Hj Hr), He.
  - intros rs e i Hf Hi.
    assert (G : forall n, (exists j, first_fit_place fs max_seq rs e j) \/ (forall j r, (j < n)%nat -> nth_error rs j = Some r -> ~ (has_room fs r e /\ below_max max_seq r))).
    { induction n as [|n [IH|IH]]; [right; lia|now left|]. destruct (nth_error rs n) as [r|] eqn:En.
      - destruct (forallb (fun x => x) (features_fit capacities max_seq e (row_of r))) eqn:F.
        + left. exists n. apply features_fit_spec in F; [|apply Hf]. split; [eauto|exact IH].
        + right. intros j r' Hj Hr'. destruct (Nat.eq_dec j n) as [->|]; [|now apply (IH j); [lia|]].
          rewrite En in Hr'. injection Hr' as <-. intros Hc. apply features_fit_spec in Hc; [congruence|apply Hf].
      - right. intros j r' Hj Hr'. destruct (Nat.eq_dec j n) as [->|]; [congruence|]. apply (IH j); [lia|easy]. }
    destruct (G (S i)) as [H|H]; [exact H|]. exfalso. apply (H i [] ltac:(lia) Hi). now apply He.
Qed.

(** Best fit *)
Lemma filled_sum (r : row) : list_sum (map f_free (buffers 0 fs r)) = filled fs r.
Proof. unfold filled. clear. generalize 0%nat. induction fs as [|f fs' IH]; intros i; [easy|]. cbn [buffers map filled_from]. rewrite <- IH. easy. Qed.
Lemma filled_zero (r : row) : filled fs r = 0%nat <-> forall i f, nth_error fs i = Some f -> taken f (column i r) = 0%nat.
Proof.
  unfold filled. clear. assert (G : forall fs i, filled_from i fs r = 0%nat <-> forall k f, nth_error fs k = Some f -> taken f (column (i + k) r) = 0%nat).
  { induction fs0 as [|f fs' IH]; intros i; [split; [intros _ [|k]; easy|easy]|]. cbn [filled_from]. rewrite Nat.eq_add_0, IH. split.
    - intros [H H'] [|k] g Hg; cbn in Hg; [injection Hg as <-; now rewrite Nat.add_0_r|]. rewrite Nat.add_succ_r. now apply H'.
    - intros H. split; [specialize (H 0%nat f eq_refl); now rewrite Nat.add_0_r in H|]. intros k g Hg. specialize (H (S k) g Hg). now rewrite Nat.add_succ_r in H. }
  apply (G fs 0%nat).
Qed.
Lemma fittable_spec (e : element) (r : row) : length (fst e) = length fs ->
  fittable capacities max_seq e (row_of r) = true <-> best_fit_can fs max_seq r e.
Proof.
  intros Hl. unfold fittable, new_free_cells, row_of. cbn [r_feats r_n].
  set (w := fun c : nat => match max_seq with None => 0%nat | Some m => if Nat.ltb (length r) m then 0%nat else c end).
  pose proof (forall_features (fun v c f => ((f_free f + length v + w c)%nat, c)) (fun nc => Nat.leb (fst nc) (snd nc)) e r
    (fun i f => (taken f (column i r) + length (nth i (fst e) []) + w (capacity f) <= capacity f)%nat) Hl) as H.
  refine (iff_trans (H _) _); [intros i f Hi; cbn [fst snd buffer f_free]; apply Nat.leb_le|]. clear H.
  unfold best_fit_can. destruct (match max_seq with None => true | Some m => Nat.ltb (length r) m end) eqn:Em.
  - pose proof (proj1 (below_max_spec r) Em) as Hb. assert (Hw : forall c, w c = 0%nat).
    { intros c. unfold w. destruct max_seq; [|easy]. now rewrite Em. }
    split; [|intros [H _] i f Hi; specialize (H i f Hi); rewrite Hw; lia]. intros H. split; [|now left]. intros i f Hi. specialize (H i f Hi). lia.
  - assert (Hb : ~ below_max max_seq r) by (intros Hb; apply below_max_spec in Hb; congruence). assert (Hw : forall c, w c = c).
    { intros c. unfold w. destruct max_seq; [|easy]. now rewrite Em. }
    split.
    + intros H. split; [intros i f Hi; specialize (H i f Hi); lia|]. right. split.
      * apply filled_zero. intros i f Hi. specialize (H i f Hi). rewrite Hw in H. lia.
      * intros i Hi. apply nth_error_Some in Hi. destruct (nth_error fs i) as [f|] eqn:E; [|easy]. specialize (H i f E). rewrite Hw in H.
        apply length_zero_iff_nil. lia.
    + intros [_ [Hb'|[Hz Ht]]] i f Hi; [easy|]. rewrite filled_zero in Hz. rewrite (Hz i f Hi), (Ht i), Hw; [cbn; lia|]. apply nth_error_Some. now rewrite Hi.
Qed.

Lemma argmax_from_spec : forall l pre best bi, nth_error pre bi = Some best ->
  (forall j y, nth_error pre j = Some y -> y <= best /\ (y = best -> (bi <= j)%nat)) ->
  exists x, nth_error (pre ++ l) (argmax_from best bi (length pre) l) = Some x /\
    forall j y, nth_error (pre ++ l) j = Some y -> y <= x /\ (y = x -> (argmax_from best bi (length pre) l <= j)%nat).
Proof.
  induction l as [|x l IH]; intros pre best bi Hb Hm.
  - rewrite app_nil_r. cbn. eauto.
  - cbn [argmax_from]. replace (pre ++ x :: l) with ((pre ++ [x]) ++ l) by now rewrite <- app_assoc.
    replace (length pre + 1)%nat with (length (pre ++ [x])) by now rewrite app_length.
    assert (Hlast : forall j y, nth_error (pre ++ [x]) j = Some y -> nth_error pre j = Some y \/ (j = length pre /\ y = x)).
    { intros j y Hj. destruct (Nat.lt_ge_cases j (length pre)) as [Hlt|Hge]; [rewrite nth_error_app1 in Hj by lia; now left|].
      rewrite nth_error_app2 in Hj by lia. destruct (j - length pre)%nat as [|k] eqn:E; [|now destruct k]. cbn in Hj. injection Hj as <-. right. split; [lia|easy]. }
    destruct (Z.ltb_spec best x).
    + apply IH.
      * rewrite nth_error_app2, Nat.sub_diag by lia. easy.
      * intros j y Hj. destruct (Hlast j y Hj) as [Hj'|[-> ->]]; [|split; [lia|lia]]. destruct (Hm _ _ Hj'). split; lia.
    + apply IH.
      * rewrite nth_error_app1; [exact Hb|]. apply nth_error_Some. now rewrite Hb.
      * intros j y Hj. destruct (Hlast j y Hj) as [Hj'|[-> ->]]; [now apply Hm|]. split; [lia|]. intros _. apply Nat.lt_le_incl, nth_error_Some. now rewrite Hb.
Qed.
Lemma argmax_spec l : l <> [] -> exists x, nth_error l (argmax l) = Some x /\ forall j y, nth_error l j = Some y -> y <= x /\ (y = x -> (argmax l <= j)%nat).
Proof.
  destruct l as [|x l]; [easy|]. intros _. apply (argmax_from_spec l [x] x 0%nat eq_refl).
  intros [|[|j]] y; cbn; [intros [= <-]; split; lia|easy|easy].
Qed.
Lemma best_fit_det (rs : rows) e i j : best_fit_place fs max_seq rs e i -> best_fit_place fs max_seq rs e j -> i = j.
Proof.
  intros (r & Hr & H1 & H2) (r' & Hr' & H1' & H2'). specialize (H2 j r' Hr' H1'). specialize (H2' i r Hr H1). lia.
Qed.
Lemma best_fit_exists (rs : rows) e i r : length (fst e) = length fs -> nth_error rs i = Some r -> best_fit_can fs max_seq r e ->
  exists r', nth_error rs (argmax (map (score capacities max_seq e) (map row_of rs))) = Some r' /\
    best_fit_place fs max_seq rs e (argmax (map (score capacities max_seq e) (map row_of rs))).
Proof.
  intros Hl Hi Hc. set (sc := map _ (map row_of rs)). destruct (argmax_spec sc) as (x & Hx & Hmax).
  { unfold sc. destruct rs; [now destruct i|easy]. }
  assert (Hs : forall j, nth_error sc j = option_map (fun r => if fittable capacities max_seq e (row_of r) then Z.of_nat (filled fs r) else -1) (nth_error rs j)).
  { intros j. unfold sc. rewrite map_map, nth_error_map. destruct (nth_error rs j) as [r0|]; [|easy]. cbn [option_map]. unfold score. f_equal.
    cbn [row_of r_feats]. now rewrite filled_sum. }
  assert (H0 : 0 <= x).
  { pose proof (Hs i) as E. rewrite Hi in E. cbn [option_map] in E. rewrite (proj2 (fittable_spec e r Hl) Hc) in E. apply Hmax in E. lia. }
  rewrite Hs in Hx. destruct (nth_error rs (argmax sc)) as [r'|] eqn:Er; [|easy]. cbn [option_map] in Hx. injection Hx as Hx.
  destruct (fittable capacities max_seq e (row_of r')) eqn:F; [|lia]. exists r'. split; [easy|]. exists r'. split; [easy|]. split; [now apply fittable_spec|].
  intros j r2 Hj Hc2. pose proof (Hs j) as E. rewrite Hj in E. cbn [option_map] in E. rewrite (proj2 (fittable_spec e r2 Hl) Hc2) in E. apply Hmax in E. lia.
Qed.
Lemma best_fit_strategy : match max_seq with Some m => (1 <= m)%nat | None => True end ->
  strategy (best_fit capacities aligns max_seq) (best_fit_place fs max_seq).
Proof.
  intros Hm. assert (He : forall e : element, fits_alone fs e -> best_fit_can fs max_seq [] e).
  { intros e H. split; [now apply fits_has_room|]. left. unfold below_max. destruct max_seq; [cbn; lia|easy]. }
  assert (H0 : filled fs [] = 0%nat) by (apply filled_zero; easy).
  split.
  - apply best_fit_det.
  - intros rs e Hne Hf. destruct (too_long_false e Hf) as [E1 E2]. unfold best_fit. rewrite E1, E2. cbn [negb].
    pose proof (proj1 Hf) as Hl. rewrite map_length. destruct (Nat.eqb_spec (length fs) 0) as [E0|_]; [apply length_zero_iff_nil in E0; easy|].
    destruct (existsb _ (map row_of rs)) eqn:E.
    + left. apply existsb_exists in E as (x & Hx & F). apply in_map_iff in Hx as (r & <- & Hr). apply In_nth_error in Hr as (i & Hi).
      apply fittable_spec in F; [|exact Hl]. destruct (best_fit_exists rs e i r Hl Hi F) as (r' & Hr' & Hp).
      eexists _, r'. split; [exact Hp|]. split; [exact Hr'|]. rewrite (add_to_batch_ok e rs _ r' Hl Hr'); [easy|].
      destruct Hp as (r2 & Hr2 & Hc & _). rewrite Hr' in Hr2. injection Hr2 as <-. apply Hc.
    + right. split.
      * intros i (r & Hr & Hc & _). apply (fittable_spec e r Hl) in Hc. enough (true = false) by easy. rewrite <- E. symmetry. apply existsb_exists.
        exists (row_of r). split; [apply in_map; eapply nth_error_In; exact Hr|exact Hc].
      * destruct rs as [|r rs]; [easy|]. cbn [map existsb] in E |- *. apply orb_false_iff in E as [E _].
        assert (existsb (fun nc => negb (Nat.leb (fst nc) (snd nc))) (new_free_cells capacities max_seq e (row_of r)) = true) as ->; [|easy].
        unfold fittable in E. clear - E. induction (new_free_cells capacities max_seq e (row_of r)) as [|x xs IH]; [easy|].
        cbn [forallb existsb] in *. destruct (Nat.leb (fst x) (snd x)); [|easy]. cbn in *. auto.
  - intros rs e i (r & Hr & [H _] & _). eauto.
  - intros rs e i j Hf (r & Hr & _ & Hmax) Hi Hj Hjr. rewrite Hi in Hr. injection Hr as <-. specialize (Hmax j [] Hjr (He e Hf)). lia.
  - intros rs e i Hf Hi. destruct (best_fit_exists rs e i [] (proj1 Hf) Hi (He e Hf)) as (r' & _ & H). eauto.
Qed.
End Buffers.

(** ** Batches *)
Section Batches.
Context {A M : Type}.
Variable fs : list (feature A).
Notation element := (element A M).
Variable bins : nat.
Variable try_add : element -> list (Packing.row A M) -> res (option (list (Packing.row A M))).
Variable place : list (list element) -> element -> nat -> Prop.
Hypothesis St : strategy fs try_add place.
Hypothesis Hbins : (1 <= bins)%nat.

Definition prefix_full (rs : list (list element)) : Prop := exists a m, rs = a ++ List.repeat [] m /\ Forall (fun r => r <> []) a.
Lemma update_nth_app1 {X} (a b : list X) i x : (i < length a)%nat -> update_nth i x (a ++ b) = update_nth i x a ++ b.
Proof. revert i. induction a as [|y a IH]; intros [|i] H; cbn in *; try lia; try easy. now rewrite IH by lia. Qed.
Lemma update_nth_app2 {X} (a b : list X) x : update_nth (length a) x (a ++ b) = a ++ update_nth 0 x b.
Proof. induction a as [|y a IH]; [easy|]. cbn in *. now rewrite IH. Qed.
Lemma Forall_update_nth {X} (P : X -> Prop) a i x : Forall P a -> P x -> Forall P (update_nth i x a).
Proof. intros H Hx. revert i. induction H as [|y a Hy H IH]; intros [|i]; cbn; constructor; auto. Qed.
Lemma nth_error_repeat' {X} (x : X) m i : (i < m)%nat -> nth_error (List.repeat x m) i = Some x.
Proof. intros H. now apply nth_error_repeat. Qed.

Lemma prefix_step rs e i r : prefix_full rs -> fits_alone fs e -> place rs e i -> nth_error rs i = Some r -> prefix_full (update_nth i (r ++ [e]) rs).
Proof.
  intros (a & m & -> & Ha) Hf Hp Hr. destruct (Nat.lt_ge_cases i (length a)) as [Hi|Hi].
  - rewrite update_nth_app1 by exact Hi. exists (update_nth i (r ++ [e]) a), m. split; [easy|]. apply Forall_update_nth; [exact Ha|]. now destruct r.
  - rewrite nth_error_app2 in Hr by lia. assert (Him : (i - length a < m)%nat) by (rewrite <- (repeat_length (@nil element) m); apply nth_error_Some; now rewrite Hr).
    rewrite nth_error_repeat' in Hr by exact Him. injection Hr as <-.
    destruct (Nat.eq_dec i (length a)) as [->|Hne].
    + rewrite update_nth_app2. destruct m as [|m]; [lia|]. cbn [List.repeat update_nth]. exists (a ++ [[e]]), m. rewrite <- app_assoc. split; [easy|].
      apply Forall_app. split; [exact Ha|]. now constructor.
    + exfalso. apply (so_prefix _ _ _ St _ e i (length a) Hf Hp); [| |].
      * rewrite nth_error_app2 by lia. now apply nth_error_repeat'.
      * lia.
      * rewrite nth_error_app2, Nat.sub_diag by lia. apply nth_error_repeat'. lia.
Qed.
Lemma filter_ext_full (a : list (list element)) : Forall (fun r => r <> []) a -> nonempty a = a.
Proof. intros H. unfold nonempty. induction H as [|r a Hr H IH]; [easy|]. cbn. rewrite IH. now destruct r. Qed.
Lemma filter_repeat_nil m : nonempty (List.repeat (@nil element) m) = [].
Proof. induction m; easy. Qed.
Lemma packed_rows_ok rs : length rs = bins -> prefix_full rs -> packed_rows bins (map (row_of fs) rs) = map (show fs) (nonempty rs).
Proof.
  intros Hl (a & m & -> & Ha). unfold packed_rows.
  assert (E : nonempty (a ++ List.repeat [] m) = a).
  { unfold nonempty. rewrite filter_app. fold (nonempty a). fold (nonempty (List.repeat (@nil element) m)). now rewrite filter_ext_full, filter_repeat_nil, app_nil_r. }
  assert (C : length (filter (fun r => Nat.ltb 0 (r_n r)) (map (row_of fs) (a ++ List.repeat [] m))) = length a).
  { rewrite <- E at 2. unfold nonempty. generalize (a ++ List.repeat [] m) as l. clear. induction l as [|r l IH]; [easy|]. cbn [map filter].
    assert (Nat.ltb 0 (r_n (row_of fs r)) = match r with [] => false | _ => true end) as -> by now destruct r.
    destruct r; [exact IH|]. cbn [length]. now rewrite IH. }
  rewrite C, E. rewrite app_length, repeat_length in Hl.
  assert (T : map (row_of fs) (if Nat.ltb (length a) bins then firstn (length a) (a ++ List.repeat [] m) else a ++ List.repeat [] m) = map (row_of fs) a).
  { destruct (Nat.ltb_spec (length a) bins).
    - rewrite firstn_app, firstn_all, Nat.sub_diag. cbn. now rewrite app_nil_r.
    - assert (m = 0%nat) as -> by lia. cbn. now rewrite app_nil_r. }
  transitivity (map emit_row (map (row_of fs) a)).
  - f_equal. rewrite <- T. destruct (Nat.ltb (length a) bins); [apply firstn_map|easy].
  - rewrite map_map. apply map_ext. intros r. apply emit_row_of.
Qed.
Lemma prefix_nil m : prefix_full (List.repeat [] m).
Proof. exists [], m. easy. Qed.

(** A batch takes at least one element. *)
Lemma fills_length rs l b rest : fills place rs l b rest -> length b = length rs.
Proof. induction 1 as [|rs e l i r b rest Hp Hr H IH|]; [easy| |easy]. now rewrite IH, update_nth_length. Qed.
Definition held (rs : list (list element)) : nat := list_sum (map (@length element) rs).
Lemma held_update rs i r e : nth_error rs i = Some r -> held (update_nth i (r ++ [e]) rs) = S (held rs).
Proof.
  unfold held. revert i. induction rs as [|x rs IH]; intros [|i] H; try easy; cbn in *.
  - injection H as ->. rewrite app_length. cbn. lia.
  - unfold list_sum in IH. rewrite (IH i H). lia.
Qed.
Lemma held_nonempty rs : (0 < held rs)%nat -> (0 < length (nonempty rs))%nat.
Proof. unfold held, nonempty. induction rs as [|r rs IH]; cbn; [easy|]. destruct r; cbn in *; [exact IH|lia]. Qed.
Lemma fills_held rs l b rest : fills place rs l b rest -> (held b + length rest = held rs + length l)%nat.
Proof. induction 1 as [|rs e l i r b rest Hp Hr H IH|]; [easy| |easy]. rewrite (held_update _ _ _ _ Hr) in IH. cbn. lia. Qed.
Lemma held_repeat m : held (List.repeat [] m) = 0%nat.
Proof. induction m; easy. Qed.
Lemma empty_place e : fits_alone fs e -> exists i, place (List.repeat [] bins) e i.
Proof. intros H. apply (so_empty _ _ _ St) with (i := 0%nat); [exact H|]. now apply nth_error_repeat'. Qed.
Lemma fills_held_le rs l b rest : fills place rs l b rest -> (held rs <= held b)%nat.
Proof. induction 1 as [|rs e l i r b rest Hp Hr H IH|]; [easy| |easy]. rewrite (held_update _ _ _ _ Hr) in IH. lia. Qed.
Lemma fills_some l b rest : l <> [] -> Forall (fits_alone fs) l -> fills place (List.repeat [] bins) l b rest -> (0 < length (nonempty b))%nat /\ (length rest < length l)%nat.
Proof.
  intros Hl Hf H. pose proof (fills_held _ _ _ _ H) as Hh. rewrite held_repeat in Hh. enough (0 < held b)%nat by (split; [now apply held_nonempty|lia]).
  destruct l as [|e l]; [easy|]. inversion Hf as [|? ? He Hf']; subst.
  inversion H as [|? ? ? i r ? ? Hp Hr H'|? ? ? Hn]; subst.
  - apply fills_held_le in H'. rewrite (held_update _ _ _ _ Hr) in H'. lia.
  - destruct (empty_place e He) as (i & Hi). now apply Hn in Hi.
Qed.
Lemma fills_suffix rs l b rest : fills place rs l b rest -> exists n, rest = skipn n l.
Proof. induction 1 as [|rs e l i r b rest Hp Hr H (n & IH)|]; [now exists 0%nat| |now exists 0%nat]. exists (S n). exact IH. Qed.
Lemma Forall_skipn {X} (P : X -> Prop) n l : Forall P l -> Forall P (skipn n l).
Proof. intros H. revert n. induction H; intros [|n]; cbn; auto. Qed.
Lemma fills_exist : forall l rs, rs <> [] -> Forall (fits_alone fs) l -> exists b rest, fills place rs l b rest.
Proof.
  induction l as [|e l IH]; intros rs Hne Hf; [do 2 eexists; constructor|]. inversion Hf as [|? ? He Hf']; subst.
  destruct (so_step _ _ _ St rs e Hne He) as [(i & r & Hp & Hr & _)|[Hn _]].
  - destruct (IH (update_nth i (r ++ [e]) rs)) as (b & rest & H); [|exact Hf'|].
    + intros E. apply (f_equal (@length _)) in E. rewrite update_nth_length in E. now destruct rs.
    + exists b, rest. now apply fills_add with i r.
  - do 2 eexists. now apply fills_full.
Qed.
Lemma packs_exist : forall l, Forall (fits_alone fs) l -> exists bs, packs place bins l bs.
Proof.
  intros l. remember (length l) as n eqn:En. revert l En. induction n as [n IH] using lt_wf_ind. intros l -> Hf.
  destruct l as [|e l]; [eexists; constructor|].
  destruct (fills_exist (e :: l) (List.repeat [] bins)) as (b & rest & H); [now destruct bins; [lia|]|exact Hf|].
  destruct (fills_some (e :: l) b rest ltac:(easy) Hf H) as [_ Hlt]. destruct (fills_suffix _ _ _ _ H) as (k & ->).
  destruct (IH _ Hlt (skipn k (e :: l)) eq_refl) as (bs & Hbs); [now apply Forall_skipn|]. exists (b :: bs). now apply packs_batch with (skipn k (e :: l)).
Qed.
Lemma fills_det rs l b rest b' rest' : fills place rs l b rest -> fills place rs l b' rest' -> b = b' /\ rest = rest'.
Proof.
  intros H. revert b' rest'. induction H as [|rs e l i r b rest Hp Hr H IH|rs e l Hn]; intros b' rest' H'; inversion H'; subst; try easy.
  - match goal with Hq : place rs e ?j |- _ => assert (j = i) as -> by (eapply (so_det _ _ _ St); eassumption) end.
    match goal with Hq : nth_error rs i = Some ?x |- _ => assert (x = r) as -> by congruence end. now apply IH.
  - exfalso. match goal with H1 : forall _, ~ place ?x ?y _, H2 : place ?x ?y _ |- _ => exact (H1 _ H2) end.
  - exfalso. match goal with H1 : forall _, ~ place ?x ?y _, H2 : place ?x ?y _ |- _ => exact (H1 _ H2) end.
Qed.
Lemma packs_det l bs bs' : packs place bins l bs -> packs place bins l bs' -> bs = bs'.
Proof.
  intros H. revert bs'. induction H as [|l b rest bs Hl H Hp IH]; intros bs' H'; inversion H'; subst; try easy.
  match goal with Hq : fills _ _ _ ?b2 ?r2 |- _ => destruct (fills_det _ _ _ _ _ _ H Hq) as [-> ->] end. f_equal. now apply IH.
Qed.
Lemma packs_suffix l b bs : packs place bins l (b :: bs) -> exists n, packs place bins (skipn n l) bs.
Proof. intros H. inversion H; subst. destruct (fills_suffix _ _ _ _ H4) as (n & ->). eauto. Qed.
End Batches.

(** ** Emission *)
Lemma in_order_length {X} (o : list nat) (rows : list X) : Permutation o (seq 0 (length rows)) -> length (in_order o rows) = length rows.
Proof.
  intros H. rewrite <- (seq_length (length rows) 0), <- (Permutation_length H).
  assert (G : forall i, In i o -> (i < length rows)%nat) by (intros i Hi; apply (Permutation_in _ H), in_seq in Hi; lia).
  clear H. unfold in_order. induction o as [|i o IH]; [easy|]. cbn [flat_map]. rewrite app_length, IH by (intros; apply G; now right).
  pose proof (G i (or_introl eq_refl)) as Hi. apply nth_error_Some in Hi. now destruct (nth_error rows i).
Qed.
Lemma in_order_nth {X} (o : list nat) (rows : list X) k x : (forall i, In i o -> (i < length rows)%nat) ->
  nth_error (in_order o rows) k = Some x -> exists i, nth_error o k = Some i /\ nth_error rows i = Some x.
Proof.
  unfold in_order. revert k. induction o as [|i o IH]; intros k G H; [now destruct k|]. cbn [flat_map] in H.
  pose proof (G i (or_introl eq_refl)) as Hi. apply nth_error_Some in Hi. destruct (nth_error rows i) as [y|] eqn:E; [|easy].
  destruct k as [|k]; cbn in H; [injection H as ->; now exists i|]. apply IH; [|exact H]. intros; apply G; now right.
Qed.

Lemma skipn_cons_nth {X} (l : list X) Q e lx : e :: lx = skipn Q l -> nth_error l Q = Some e /\ lx = skipn (S Q) l.
Proof. revert Q. induction l as [|x l' IH]; intros [|Q] El; try easy; cbn in El; [now injection El as -> ->|now apply IH]. Qed.

Section Law.
Context {A M : Type}.
Variable fs : list (feature A).
Notation element := (element A M).
Variable bins : nat.
Variable try_add : element -> list (Packing.row A M) -> res (option (list (Packing.row A M))).
Variable place : list (list element) -> element -> nat -> Prop.
Hypothesis St : strategy fs try_add place.
Hypothesis Hbins : (1 <= bins)%nat.
Notation capacities := (map capacity fs).
Notation pads := (map padding fs).
Variable permuted : Z -> nat -> res (list nat).
Variable seed : Z.
Variable shuffle_bins : bool.
Variable group : option (packed_row A M -> Z).
Variable order : nat -> list (packed_row A M) -> list nat.
Hypothesis Horder : forall T rows,
  (if shuffle_bins then shuffled_rows permuted seed group rows (Z.of_nat T) else Ok (seq 0 (length rows))) = Ok (order T rows).
Hypothesis Hperm : forall T rows, Permutation (order T rows) (seq 0 (length rows)).

Variable p : Iter element.
Variables (l : list element) (fin used json : bool) (N : nat) (rep : ist p -> nat -> Prop) (crep : ick p -> nat -> Prop).
Hypothesis L : Law p l fin used json N rep crep.
Hypothesis Hfit : Forall (fits_alone fs) l.
Notation it := (pack_it bins capacities pads permuted seed shuffle_bins group try_add p).
Notation packer := (packer A M (ist p) (ick p)).
Notation fill := (fills place).

Definition rows_of (b : list (list element)) : list (packed_row A M) := map (show fs) (nonempty b).
Definition closed (bs : list (list (list element))) : list (list (list element)) := if fin then bs else removelast bs.
Definition cur_ok (cur : option (list (Packing.row A M))) (rs : list (list element)) : Prop :=
  (cur = Some (map (row_of fs) rs) \/ (cur = None /\ rs = List.repeat [] bins)) /\ length rs = bins /\ prefix_full rs.
Definition ready (Q : nat) (cur : option (list (Packing.row A M))) (bs : list (list (list element))) : Prop :=
  (bs = [] /\ Q = length l /\ cur = None) \/
  exists b bs' rest rs, bs = b :: bs' /\ packs place bins rest bs' /\ cur_ok cur rs /\ fill rs (skipn Q l) b rest /\ (0 < length (rows_of b))%nat.

Lemma cur_batch cur rs : cur_ok cur rs -> match cur with Some b => b | None => empty_batch bins capacities pads end = map (row_of fs) rs.
Proof. intros [[->|[-> ->]] _]; [easy|]. symmetry. apply batch_nil. Qed.
Lemma finalize_ok rs T k : length rs = bins -> prefix_full rs ->
  finalize bins permuted seed shuffle_bins group (map (row_of fs) rs) (Z.of_nat (T + k)) k = Ok (rows_of rs, order T (rows_of rs)).
Proof.
  intros Hl Hp. unfold finalize. rewrite packed_rows_ok by assumption. fold (rows_of rs).
  replace (Z.of_nat (T + k) - Z.of_nat k) with (Z.of_nat T) by lia. now rewrite Horder.
Qed.
Lemma packs_rows lx b bs : Forall (fits_alone fs) lx -> packs place bins lx (b :: bs) -> (0 < length (rows_of b))%nat.
Proof. intros Hf H. inversion H; subst. unfold rows_of. rewrite map_length. now apply (fills_some fs bins try_add place St Hbins lx b rest). Qed.
Lemma suffix_fit Q : Forall (fits_alone fs) (skipn Q l).
Proof. now apply Forall_skipn. Qed.
Lemma ready_start P bs : (P <= length l)%nat -> packs place bins (skipn P l) bs -> ready P None bs.
Proof.
  intros HP H. remember (skipn P l) as lx eqn:El. destruct H as [|lx b rest bs Hl Hf Hp].
  - left. split; [easy|]. split; [|easy]. apply (f_equal (@length _)) in El. rewrite skipn_length in El. cbn in El. lia.
  - right. exists b, bs, rest, (List.repeat [] bins). subst lx. split; [easy|]. split; [exact Hp|]. split; [|split; [exact Hf|]].
    + split; [now right|]. split; [apply repeat_length|apply prefix_nil].
    + apply (packs_rows (skipn P l) b bs); [apply suffix_fit|]. now apply packs_batch with rest.
Qed.

(** The loop finishes the batch. *)
Lemma loop_ok fuel0 : (N <= fuel0)%nat -> forall rs lx b rest, fill rs lx b rest -> forall fuel Q ps cur bs' last after T k,
  lx = skipn Q l -> rep ps Q -> cur_ok cur rs -> (0 < length (rows_of b))%nat -> packs place bins rest bs' -> (fin = true \/ rest <> []) ->
  (length lx < fuel)%nat ->
  exists ps' cur' P' Q' c,
    pack_loop bins capacities pads permuted seed shuffle_bins group try_add p fuel0 fuel (mkPacker ps cur last after None k (Z.of_nat (T + k))) =
      emit p (mkPacker ps' cur' last (Some c) (Some (rows_of b, order T (rows_of b))) k (Z.of_nat (T + k))) /\
    crep c P' /\ (P' <= length l)%nat /\ rest = skipn P' l /\ rep ps' Q' /\ ready Q' cur' bs'.
Proof.
  intros HN rs lx b rest H. induction H as [rs|rs e lx i r b rest Hp Hr H IH|rs e lx Hn]; intros fuel Q ps cur bs' last after T k El Hrep Hc Hb Hpk Hfin Hfu;
    (destruct fuel as [|fuel]; [lia|]); cbn [pack_loop pk_parent pk_current pk_last pk_after pk_next pk_counter].
  - destruct Hfin as [Hfin|Hfin]; [|easy]. pose proof (law_le L _ _ Hrep) as HQ.
    assert (Q = length l) as -> by (apply (f_equal (@length _)) in El; rewrite skipn_length in El; cbn in El; lia).
    destruct (law_stop L fuel0 ps HN Hfin Hrep) as (ps' & -> & Hrep'). destruct Hc as ([->|[-> ->]] & Hlen & Hpre).
    + rewrite finalize_ok by assumption. exists ps', None, (length l), (length l), (get_state p ps). split; [reflexivity|].
      split; [now apply (law_get L)|]. split; [lia|]. split; [exact El|]. split; [exact Hrep'|]. left. inversion Hpk; subst; [easy|]. easy.
    + exfalso. unfold rows_of in Hb. rewrite filter_repeat_nil in Hb. cbn in Hb. lia.
  - destruct (skipn_cons_nth _ _ _ _ El) as [He El']. destruct (law_next L fuel0 ps Q e HN Hrep He) as (ps' & -> & Hrep').
    rewrite (cur_batch _ _ Hc). destruct Hc as (_ & Hlen & Hpre).
    assert (Hfe : fits_alone fs e) by (rewrite Forall_forall in Hfit; apply Hfit; eapply nth_error_In; exact He).
    destruct (so_step _ _ _ St rs e) as [(i' & r' & Hp' & Hr' & ->)|[Hn _]]; [now destruct rs; [cbn in Hlen; lia|]|exact Hfe| |now apply Hn in Hp].
    assert (i' = i) as -> by (eapply (so_det _ _ _ St); eassumption). assert (r' = r) as -> by congruence.
    apply IH with (Q := S Q); try easy.
    + split; [now left|]. split; [now rewrite update_nth_length|]. now apply (prefix_step fs bins try_add place St Hbins _ e i).
    + cbn in Hfu. lia.
  - destruct (skipn_cons_nth _ _ _ _ El) as [He El']. destruct (law_next L fuel0 ps Q e HN Hrep He) as (ps' & -> & Hrep').
    rewrite (cur_batch _ _ Hc). destruct Hc as (_ & Hlen & Hpre).
    assert (Hfe : fits_alone fs e) by (rewrite Forall_forall in Hfit; apply Hfit; eapply nth_error_In; exact He).
    destruct (so_step _ _ _ St rs e) as [(i' & r' & Hp' & _)|[_ ->]]; [now destruct rs; [cbn in Hlen; lia|]|exact Hfe|now apply Hn in Hp'|].
    rewrite finalize_ok by assumption. rewrite <- (batch_nil fs).
    destruct (empty_place fs bins try_add place St Hbins e Hfe) as (i0 & Hi0).
    destruct (so_step _ _ _ St (List.repeat [] bins) e) as [(i & r & Hp & Hr & ->)|[Hn' _]]; [now destruct bins; [lia|]|exact Hfe| |now apply Hn' in Hi0].
    inversion Hpk as [|? b2 rest2 bs2 _ Hf2 Hp2]; subst bs'. pose proof (packs_rows (e :: lx) b2 bs2 ltac:(rewrite El; apply suffix_fit) Hpk) as Hb2.
    inversion Hf2 as [|? ? ? i2 r2 ? ? Hq Hr2 Hf3|? ? ? Hn2]; subst; [|now apply Hn2 in Hp].
    assert (i2 = i) as -> by (eapply (so_det _ _ _ St); eassumption). assert (r2 = r) as -> by congruence.
    eexists ps', _, Q, (S Q), (get_state p ps). split; [reflexivity|]. split; [now apply (law_get L)|]. split; [now apply (law_le L ps)|].
    split; [exact El|]. split; [exact Hrep'|]. right. eexists b2, bs2, rest2, _. split; [reflexivity|]. split; [exact Hp2|]. split; [|split; [exact Hf3|exact Hb2]].
    split; [now left|]. rewrite update_nth_length, repeat_length. split; [easy|]. apply (prefix_step fs bins try_add place St Hbins _ e i); try assumption. apply prefix_nil.
Qed.
(** ... or there is nothing left. *)
Lemma loop_stop fuel0 fuel ps last after k c : (N <= fuel0)%nat -> (0 < fuel)%nat -> fin = true -> rep ps (length l) ->
  exists ps', pack_loop bins capacities pads permuted seed shuffle_bins group try_add p fuel0 fuel (mkPacker ps None last after None k c) =
    (Stop, mkPacker ps' None last after None k c) /\ rep ps' (length l).
Proof.
  intros HN Hf Hfin Hr. destruct fuel as [|fuel]; [lia|]. cbn [pack_loop pk_parent pk_current pk_last pk_after pk_next pk_counter].
  destruct (law_stop L fuel0 ps HN Hfin Hr) as (ps' & -> & Hr'). eauto.
Qed.

Variable bs0 : list (list (list element)).
Hypothesis Hbs0 : packs place bins l bs0.
Definition out_rows : list (packed_row A M) := emission fs order 0 (closed bs0).

Definition at_batch (P T k : nat) (bs : list (list (list element))) : Prop :=
  (P <= length l)%nat /\ packs place bins (skipn P l) bs /\ skipn T out_rows = emission fs order T (closed bs) /\ (T + k <= length out_rows)%nat /\
  match bs with [] => k = 0%nat | b :: _ => (k < length (rows_of b))%nat end.
Definition prep (s : packer) (n : nat) : Prop := exists P T k bs Q,
  n = (T + k)%nat /\ at_batch P T k bs /\ pk_next s = k /\ pk_counter s = Z.of_nat (T + k) /\ crep (pk_last s) P /\ rep (pk_parent s) Q /\
  match pk_rows s with
  | None => ready Q (pk_current s) bs
  | Some (rows, o) => exists b bs' P' c, bs = b :: bs' /\ rows = rows_of b /\ o = order T rows /\ pk_after s = Some c /\ crep c P' /\ (P' <= length l)%nat /\
      packs place bins (skipn P' l) bs' /\ ready Q (pk_current s) bs' /\ (fin = true \/ bs' <> [])
  end.
Definition pcrep (c : ick p * nat * Z) (n : nat) : Prop := exists P T k bs,
  n = (T + k)%nat /\ at_batch P T k bs /\ crep (fst (fst c)) P /\ snd (fst c) = k /\ snd c = Z.of_nat (T + k).

Lemma closed_cons b bs : fin = true \/ bs <> [] -> closed (b :: bs) = b :: closed bs.
Proof. clear L. intros H. unfold closed. destruct fin; [easy|]. destruct H as [H|H]; [easy|]. now destruct bs. Qed.
Lemma closed_nonempty bs T : emission fs order T (closed bs) <> [] -> exists b bs', bs = b :: bs' /\ (fin = true \/ bs' <> []).
Proof.
  clear L. intros H. unfold closed in H. destruct bs as [|b bs']; [now destruct fin|]. exists b, bs'. split; [easy|].
  destruct fin; [now left|]. right. now destruct bs'.
Qed.
Lemma emission_cons b bs T : fin = true \/ bs <> [] ->
  emission fs order T (closed (b :: bs)) = in_order (order T (rows_of b)) (rows_of b) ++ emission fs order (T + length (rows_of b)) (closed bs).
Proof. intros H. rewrite (closed_cons _ _ H). reflexivity. Qed.
Lemma order_length T b : length (in_order (order T (rows_of b)) (rows_of b)) = length (rows_of b).
Proof. apply in_order_length, Hperm. Qed.
Lemma order_lt T rows i : In i (order T rows) -> (i < length rows)%nat.
Proof. intros H. apply (Permutation_in _ (Hperm T rows)), in_seq in H. lia. Qed.
Lemma nth_skipn {X} (x : list X) T k : nth_error x (T + k) = nth_error (skipn T x) k.
Proof. revert x. induction T as [|T IH]; intros x; [easy|]. destruct x; [now destruct k|]. apply IH. Qed.

Lemma emit_ok s n a : prep s n -> pk_rows s <> None -> nth_error out_rows n = Some a -> exists s', emit p s = (Yield a, s') /\ prep s' (S n).
Proof.
  intros (P & T & k & bs & Q & -> & (HP & Hpk & Hout & Hle & Hk) & Ek & Ec & Hlast & Hrep & Hm) Hs Ha.
  unfold emit. destruct (pk_rows s) as [[rows o]|] eqn:Er; [|easy]. destruct Hm as (b & bs' & P' & c & -> & -> & -> & Eaf & Hc & HP' & Hpk' & Hrd & Hfin).
  rewrite Ek. pose proof (nth_skipn out_rows T k) as E. rewrite Ha, Hout, emission_cons in E by exact Hfin.
  rewrite nth_error_app1 in E by (rewrite order_length; exact Hk). symmetry in E.
  destruct (in_order_nth _ _ _ _ (order_lt T (rows_of b)) E) as (i & -> & ->). eexists. split; [reflexivity|].
  assert (Hlen : (T + k < length out_rows)%nat) by (apply nth_error_Some; now rewrite Ha).
  destruct (Nat.leb_spec (length (rows_of b)) (k + 1)) as [Hend|Hmore].
  - exists P', (T + length (rows_of b))%nat, 0%nat, bs', Q. cbn [pk_next pk_counter pk_last pk_parent pk_rows pk_current].
    split; [lia|]. split; [|split; [easy|split; [lia|split; [now rewrite Eaf|split; [exact Hrep|exact Hrd]]]]].
    split; [exact HP'|]. split; [exact Hpk'|]. split; [|split; [lia|]].
    + rewrite Nat.add_comm, <- skipn_skipn, Hout, emission_cons by exact Hfin. rewrite skipn_app, order_length, Nat.sub_diag, skipn_all2 by (rewrite order_length; lia).
      cbn [app skipn]. f_equal. lia.
    + destruct bs' as [|b2 bs2]; [easy|]. apply (packs_rows (skipn P' l) b2 bs2); [apply suffix_fit|exact Hpk'].
  - exists P, T, (k + 1)%nat, (b :: bs'), Q. cbn [pk_next pk_counter pk_last pk_parent pk_rows pk_current pk_after].
    split; [lia|]. split; [|split; [easy|split; [lia|split; [exact Hlast|split; [exact Hrep|]]]]].
    + split; [exact HP|]. split; [exact Hpk|]. split; [exact Hout|]. split; [lia|exact Hmore].
    + exists b, bs', P', c. auto 10.
Qed.
Lemma set_ok ps P T k bs : rep ps P -> at_batch P T k bs -> prep (mkPacker ps None (get_state p ps) None None k (Z.of_nat (T + k))) (T + k).
Proof.
  intros Hr H. exists P, T, k, bs, P. cbn [pk_next pk_counter pk_last pk_parent pk_rows pk_current]. split; [easy|]. split; [exact H|].
  split; [easy|]. split; [easy|]. split; [now apply (law_get L)|]. split; [exact Hr|]. apply ready_start; apply H.
Qed.
Lemma live_ok P T k bs : at_batch P T k bs -> live out_rows fin (T + k) -> live l fin P.
Proof.
  clear L. intros (HP & Hpk & Hout & Hle & Hk) [H|[_ H]]; [|unfold live; destruct (Nat.lt_ge_cases P (length l)); [now left|right; split; [lia|exact H]]].
  destruct fin eqn:Ef; [unfold live; destruct (Nat.lt_ge_cases P (length l)); [now left|right; split; [lia|easy]]|].
  left. destruct (closed_nonempty bs T) as (b & bs' & -> & _).
  - rewrite <- Hout. intros E. apply (f_equal (@length _)) in E. rewrite skipn_length in E. cbn in E. lia.
  - destruct (Nat.lt_ge_cases P (length l)); [easy|]. rewrite skipn_all2 in Hpk by lia. inversion Hpk; subst; easy.
Qed.
Lemma start_ok : at_batch 0 0 0 bs0.
Proof.
  split; [lia|]. split; [exact Hbs0|]. split; [reflexivity|]. split; [lia|]. destruct bs0 as [|b bs]; [easy|]. apply (packs_rows l b bs); [exact Hfit|exact Hbs0].
Qed.

Lemma pack_law : Law it out_rows fin used json (N + length l + 1) prep pcrep.
Proof.
  assert (Hset : forall fuel (s : ist it) c P T k bs, at_batch P T k bs ->
    (exists ps, set_state p fuel (pk_parent s) c = Ok ps /\ rep ps P) -> exists s', set_state it fuel s (c, k, Z.of_nat (T + k)) = Ok s' /\ prep s' (T + k)).
  { intros fuel s c P T k bs Hat (ps & E & Hr). cbn. rewrite E. cbn. eexists. split; [reflexivity|]. now apply set_ok with (P := P) (bs := bs). }
  split.
  - apply (set_ok (init p) 0 0 0 bs0); [apply (law_init L)|apply start_ok].
  - intros s n (P & T & k & bs & Q & -> & (_ & _ & _ & H & _) & _). exact H.
  - intros fuel s n a Hf Hr Ha. pose proof Hr as (P & T & k & bs & Q & -> & Hat & Ek & Ec & Hlast & Hrep & Hm). cbn [next pack_it].
    destruct (pk_rows s) as [[rows o]|] eqn:Er.
    + apply emit_ok; [exact Hr|now rewrite Er|exact Ha].
    + destruct Hat as (HP & Hpk & Hout & Hle & Hk).
      destruct (closed_nonempty bs T) as (b & bs' & -> & Hfin).
      { rewrite <- Hout. intros E. rewrite nth_skipn, E in Ha. now destruct k. }
      destruct Hm as [(E & _)|(b2 & bs2 & rest & rs & E & Hp2 & Hcur & Hfl & Hb)]; [easy|]. injection E as <- <-.
      destruct (loop_ok fuel ltac:(lia) _ _ _ _ Hfl fuel Q (pk_parent s) (pk_current s) bs' (pk_last s) (pk_after s) T k) as (ps' & cur' & P' & Q' & c & E & Hc & HP' & Er' & Hr' & Hrd); try easy.
      * destruct Hfin as [Hfin|Hfin]; [now left|right]. intros ->. inversion Hp2; subst; easy.
      * rewrite skipn_length. lia.
      * destruct s as [sp sc sl sa sr sn sk]. cbn [pk_parent pk_current pk_last pk_after pk_rows pk_next pk_counter] in *. subst sr sn sk. rewrite E.
        apply emit_ok; [|easy|exact Ha]. exists P, T, k, (b :: bs'), Q'. cbn [pk_parent pk_current pk_last pk_after pk_rows pk_next pk_counter].
        split; [easy|]. split; [now split; [|split; [|split; [|split]]]|]. split; [easy|]. split; [easy|]. split; [exact Hlast|]. split; [exact Hr'|].
        exists b, bs', P', c. rewrite <- Er'. auto 10.
  - intros fuel s Hf Hfin (P & T & k & bs & Q & Hn & (HP & Hpk & Hout & Hle & Hk) & Ek & Ec & Hlast & Hrep & Hm). cbn [next pack_it].
    assert (bs = []) as ->.
    { destruct bs as [|b bs']; [easy|]. exfalso. rewrite emission_cons in Hout by now left. apply (f_equal (@length _)) in Hout.
      rewrite skipn_length, app_length, order_length in Hout. lia. }
    destruct s as [sp sc sl sa sr sn sk]. cbn [pk_parent pk_current pk_last pk_after pk_rows pk_next pk_counter] in *. subst sn sk k.
    destruct sr as [[rows o]|]; [destruct Hm as (? & ? & ? & ? & ? & _); discriminate|].
    destruct Hm as [(_ & -> & ->)|(b2 & bs2 & rest & rs & E & _)]; [|discriminate].
    destruct (loop_stop fuel fuel sp sl sa 0 (Z.of_nat (T + 0))) as (ps' & -> & Hr'); [lia|lia|exact Hfin|exact Hrep|].
    eexists. split; [reflexivity|]. exists P, T, 0%nat, (@nil (list (list element))), (length l). cbn [pk_parent pk_current pk_last pk_after pk_rows pk_next pk_counter].
    split; [exact Hn|]. split; [now split; [|split; [|split; [|split]]]|]. split; [easy|]. split; [easy|]. split; [exact Hlast|]. split; [exact Hr'|]. now left.
  - intros s n (P & T & k & bs & Q & -> & Hat & Ek & Ec & Hlast & Hrep & Hm). exists P, T, k, bs. cbn. auto.
  - intros [[c k'] z] n Hj (P & T & k & bs & -> & Hat & Hc & Ek & Ec). exists P, T, k, bs. cbn in *. split; [easy|]. split; [exact Hat|]. split; [now apply (law_json L)|easy].
  - intros fuel s n Hf (P & T & k & bs & Q & -> & Hat & Ek & Ec & Hlast & Hrep & Hm) Hlive. apply (Hset fuel s _ 0%nat 0%nat 0%nat bs0 start_ok).
    apply (law_start L) with (p := Q); [lia|exact Hrep|]. apply (live_ok 0 0 0 bs0 start_ok Hlive).
  - intros fuel [[c k'] z] n Hf (P & T & k & bs & -> & Hat & Hc & Ek & Ec) Hlive. cbn [fst snd] in *. subst k' z. apply (Hset fuel _ _ P T k bs Hat).
    apply (law_fresh L); [lia|exact Hc|]. apply (live_ok P T k bs Hat Hlive).
  - intros fuel s q [[c k'] z] n Hf Hu (P0 & T0 & k0 & bs1 & Q & -> & Hat0 & Ek0 & Ec0 & Hlast & Hrep & Hm) (P & T & k & bs & -> & Hat & Hc & Ek & Ec) Hlive.
    cbn [fst snd] in *. subst k' z. apply (Hset fuel _ _ P T k bs Hat).
    apply (law_used L) with (q := Q); [lia|exact Hu|exact Hrep|exact Hc|]. apply (live_ok P T k bs Hat Hlive).
Qed.

(** An element that cannot be packed, after [l]. *)
Variable bad : element.
Hypothesis Hbad : forall b, try_add bad b = Raise ValueError.
Hypothesis Hbad_next : forall fuel ps, (N <= fuel)%nat -> rep ps (length l) -> exists ps', next p fuel ps = (Yield bad, ps').
Lemma loop_bad fuel0 : (N <= fuel0)%nat -> forall rs lx b rest, fill rs lx b rest -> forall fuel Q ps cur last after k c,
  rest = [] -> lx = skipn Q l -> rep ps Q -> cur_ok cur rs -> (length lx < fuel)%nat ->
  fst (pack_loop bins capacities pads permuted seed shuffle_bins group try_add p fuel0 fuel (mkPacker ps cur last after None k c)) = Fail ValueError.
Proof.
  intros HN rs lx b rest H. induction H as [rs|rs e lx i r b rest Hp Hr H IH|rs e lx Hn]; intros fuel Q ps cur last after k c Erest El Hrep Hc Hfu;
    (destruct fuel as [|fuel]; [lia|]); cbn [pack_loop pk_parent pk_current pk_last pk_after pk_next pk_counter]; [| |easy].
  - pose proof (law_le L _ _ Hrep) as HQ.
    assert (Q = length l) as -> by (apply (f_equal (@length _)) in El; rewrite skipn_length in El; cbn in El; lia).
    destruct (Hbad_next fuel0 ps HN Hrep) as (ps' & ->). now rewrite Hbad.
  - destruct (skipn_cons_nth _ _ _ _ El) as [He El']. destruct (law_next L fuel0 ps Q e HN Hrep He) as (ps' & -> & Hrep').
    rewrite (cur_batch _ _ Hc). destruct Hc as (_ & Hlen & Hpre).
    assert (Hfe : fits_alone fs e) by (rewrite Forall_forall in Hfit; apply Hfit; eapply nth_error_In; exact He).
    destruct (so_step _ _ _ St rs e) as [(i' & r' & Hp' & Hr' & ->)|[Hn _]]; [now destruct rs; [cbn in Hlen; lia|]|exact Hfe| |now apply Hn in Hp].
    assert (i' = i) as -> by (eapply (so_det _ _ _ St); eassumption). assert (r' = r) as -> by congruence.
    apply IH with (Q := S Q); try easy.
    + split; [now left|]. split; [now rewrite update_nth_length|]. now apply (prefix_step fs bins try_add place St Hbins _ e i).
    + cbn in Hfu. lia.
Qed.
Lemma bad_next fuel s : (N + length l + 1 <= fuel)%nat -> fin = false -> prep s (length out_rows) -> fst (next it fuel s) = Fail ValueError.
Proof.
  intros Hf Hfin (P & T & k & bs & Q & Hn & (HP & Hpk & Hout & Hle & Hk) & Ek & Ec & Hlast & Hrep & Hm). cbn [next pack_it].
  assert (Hno : forall b bs', bs = b :: bs' -> bs' <> [] -> False).
  { intros b bs' -> Hne. rewrite emission_cons in Hout by now right. apply (f_equal (@length _)) in Hout.
    rewrite skipn_length, app_length, order_length in Hout. lia. }
  destruct s as [sp sc sl sa sr sn sk]. cbn [pk_parent pk_current pk_last pk_after pk_rows pk_next pk_counter] in *.
  destruct sr as [[rows o]|].
  - destruct Hm as (b & bs' & P' & c & -> & _ & _ & _ & _ & _ & _ & _ & [E|Hne]); [congruence|]. exfalso. now apply (Hno b bs').
  - destruct Hm as [(_ & -> & ->)|(b2 & bs2 & rest & rs & -> & Hp2 & Hcur & Hfl & Hb)].
    + apply (loop_bad fuel ltac:(lia) (List.repeat [] bins) [] (List.repeat [] bins) [] (fills_end _ _)) with (Q := length l); try easy.
      * now rewrite skipn_all.
      * split; [now right|]. split; [apply repeat_length|apply prefix_nil].
      * cbn. lia.
    + destruct bs2 as [|b3 bs3]; [|exfalso; now apply (Hno b2 (b3 :: bs3))]. inversion Hp2; subst.
      apply (loop_bad fuel ltac:(lia) _ _ _ _ Hfl) with (Q := Q); try easy. rewrite skipn_length. lia.
Qed.
End Law.

(** ** The order of the rows *)
Lemma insert_key_perm x l : Permutation (insert_key x l) (x :: l).
Proof. induction l as [|y l IH]; [easy|]. cbn. destruct (key_le x y); [easy|]. rewrite IH. apply perm_swap. Qed.
Lemma sort_keys_perm l : Permutation (sort_keys l) l.
Proof. induction l as [|x l IH]; [easy|]. cbn. rewrite insert_key_perm. constructor. exact IH. Qed.
Lemma key_le_group a b : key_le a b = true -> fst (fst a) <= fst (fst b).
Proof. destruct a as [[g s] i], b as [[g' s'] i']. cbn. intros H. apply orb_prop in H as [H|H]; [lia|]. apply andb_prop in H as [H _]. lia. Qed.
Lemma key_le_total a b : key_le a b = false -> key_le b a = true.
Proof.
  destruct a as [[g s] i], b as [[g' s'] i']. unfold key_le. intros H. apply not_true_iff_false in H. revert H.
  rewrite !orb_true_iff, !andb_true_iff, !orb_true_iff, !andb_true_iff, !Z.ltb_lt, !Z.eqb_eq, !Nat.ltb_lt, !Nat.eqb_eq, !Nat.leb_le. lia.
Qed.
Lemma key_le_trans a b c : key_le a b = true -> key_le b c = true -> key_le a c = true.
Proof.
  destruct a as [[g s] i], b as [[g' s'] i'], c as [[g2 s2] i2]. unfold key_le. rewrite !orb_true_iff, !andb_true_iff, !orb_true_iff, !andb_true_iff, !Z.ltb_lt, !Z.eqb_eq, !Nat.ltb_lt, !Nat.eqb_eq, !Nat.leb_le. lia.
Qed.
Lemma insert_key_sorted x l : StronglySorted (fun a b => key_le a b = true) l -> StronglySorted (fun a b => key_le a b = true) (insert_key x l).
Proof.
  induction 1 as [|y l H IH Hy]; [repeat constructor|]. cbn. destruct (key_le x y) eqn:E.
  - constructor; [now constructor|]. constructor; [exact E|]. eapply Forall_impl; [|exact Hy]. cbn. intros z Hz. now apply key_le_trans with y.
  - constructor; [exact IH|]. apply Forall_forall. intros z Hz. apply (Permutation_in _ (insert_key_perm x l)) in Hz as [<-|Hz]; [now apply key_le_total|].
    rewrite Forall_forall in Hy. now apply Hy.
Qed.
Lemma sort_keys_sorted l : StronglySorted (fun a b => key_le a b = true) (sort_keys l).
Proof. induction l as [|x l IH]; [constructor|]. cbn. now apply insert_key_sorted. Qed.
Lemma in_order_app {X} (o o' : list nat) (rows : list X) : in_order (o ++ o') rows = in_order o rows ++ in_order o' rows.
Proof. unfold in_order. apply flat_map_app. Qed.
Lemma in_order_last {X} (o : list nat) (rows : list X) r : (forall i, In i o -> (i < length rows)%nat) -> in_order o (rows ++ [r]) = in_order o rows.
Proof.
  unfold in_order. induction o as [|i o IHo]; intros H; [easy|]. cbn [flat_map]. rewrite nth_error_app1 by (apply H; now left). f_equal. apply IHo. intros; apply H; now right.
Qed.
Lemma in_order_seq {X} (rows : list X) : in_order (seq 0 (length rows)) rows = rows.
Proof.
  induction rows as [|r rows IH] using rev_ind; [easy|]. rewrite app_length, seq_app, in_order_app. cbn [length seq Nat.add].
  rewrite in_order_last, IH by (intros i Hi; apply in_seq in Hi; lia).
  unfold in_order. cbn [flat_map]. rewrite nth_error_app2, Nat.sub_diag by lia. reflexivity.
Qed.
Lemma in_order_perm {X} (o : list nat) (rows : list X) : Permutation o (seq 0 (length rows)) -> Permutation (in_order o rows) rows.
Proof. intros H. transitivity (in_order (seq 0 (length rows)) rows); [|now rewrite in_order_seq]. unfold in_order. now apply Permutation_flat_map. Qed.
Lemma shuffled_rows_ok {A M} permuted seed (group : option (packed_row A M -> Z)) rows first :
  (exists o, permuted (seed + first) (length rows) = Ok o /\ Permutation o (seq 0 (length rows))) ->
  exists o, shuffled_rows permuted seed group rows first = Ok o /\ Permutation o (seq 0 (length rows)) /\
    (forall avg, group = Some avg -> StronglySorted Z.le (map avg (in_order o rows))).
Proof.
  intros (o & E & Ho). unfold shuffled_rows. rewrite E. cbn [bind]. destruct group as [avg|]; [|now exists o].
  set (keys := map _ (seq 0 (length rows))). eexists. split; [reflexivity|].
  assert (Hk : forall x, In x keys -> exists r, nth_error rows (snd x) = Some r /\ fst (fst x) = avg r).
  { intros x Hx. apply in_map_iff in Hx as (i & <- & Hi). apply in_seq in Hi. destruct (nth_error rows i) as [r|] eqn:Er; [|apply nth_error_None in Er; lia]. exists r. cbn. easy. }
  split.
  - transitivity (map snd keys); [now apply Permutation_map, sort_keys_perm|]. unfold keys. rewrite map_map. cbn. now rewrite map_id.
  - intros avg' [= <-].
    assert (Hk' : forall x, In x (sort_keys keys) -> exists r, nth_error rows (snd x) = Some r /\ fst (fst x) = avg r).
    { intros x Hx. apply Hk. now apply (Permutation_in _ (sort_keys_perm keys)). }
    assert (Em : map avg (in_order (map snd (sort_keys keys)) rows) = map (fun x => fst (fst x)) (sort_keys keys)).
    { clear - Hk'. induction (sort_keys keys) as [|x xs IH]; [easy|]. unfold in_order in *. cbn [map flat_map]. destruct (Hk' x (or_introl eq_refl)) as (r & -> & ->).
      cbn. f_equal. apply IH. intros; apply Hk'; now right. }
    rewrite Em. clear. pose proof (sort_keys_sorted keys) as Hs. induction Hs as [|x xs Hs IH Hx]; [constructor|]. cbn [map]. constructor; [exact IH|].
    rewrite Forall_map. eapply Forall_impl; [|exact Hx]. intros y. apply key_le_group.
Qed.

(** ** The dataset *)
Lemma strategy_of {A M} (best : bool) (fs : list (feature A)) bins max_seq seed : usable fs bins max_seq seed ->
  strategy (M := M) fs (if best then best_fit (map capacity fs) (map alignment fs) (option_map Z.to_nat max_seq)
                        else first_fit (map capacity fs) (map alignment fs) (option_map Z.to_nat max_seq)) (places best fs max_seq).
Proof.
  intros (Hfs & Ha & Hb & Hm & _). destruct best; [apply best_fit_strategy|apply first_fit_strategy]; try assumption; destruct max_seq; cbn; lia.
Qed.
Lemma order_exists {A M} permuted seed shuffle_bins (group : option (packed_row A M -> Z)) : permutes permuted -> 0 <= seed ->
  exists order, row_order shuffle_bins group order /\ forall T rows,
    (if shuffle_bins then shuffled_rows permuted seed group rows (Z.of_nat T) else Ok (seq 0 (length rows))) = Ok (order T rows).
Proof.
  intros Hp Hs. exists (fun T rows => match (if shuffle_bins then shuffled_rows permuted seed group rows (Z.of_nat T) else Ok (seq 0 (length rows))) with Ok o => o | _ => [] end).
  assert (H : forall T (rows : list (packed_row A M)), exists o, shuffled_rows permuted seed group rows (Z.of_nat T) = Ok o /\ Permutation o (seq 0 (length rows)) /\
    (forall avg, group = Some avg -> StronglySorted Z.le (map avg (in_order o rows)))).
  { intros T rows. apply shuffled_rows_ok. apply Hp. lia. }
  split.
  - intros T rows. destruct (H T rows) as (o & E & Ho & Hs'). destruct shuffle_bins; [rewrite E; split; [exact Ho|split; [discriminate|auto]]|]. split; [apply Permutation_refl|]. split; [reflexivity|discriminate].
  - intros T rows. destruct (H T rows) as (o & E & Ho & Hs'). destruct shuffle_bins; [now rewrite E|easy].
Qed.
Lemma pack_dataset_lawful {A M} best (fs : list (feature A)) bins max_seq permuted seed shuffle_bins group order (p : Iter (element A M)) it l bs fin used json :
  usable fs bins max_seq seed -> packing best fs bins max_seq permuted seed shuffle_bins group p = Ok it ->
  (forall T rows, (if shuffle_bins then shuffled_rows permuted seed group rows (Z.of_nat T) else Ok (seq 0 (length rows))) = Ok (order T rows)) ->
  (forall T rows, Permutation (order T rows) (seq 0 (length rows))) ->
  lawful p l fin used json -> Forall (fits_alone fs) l -> packs (places best fs max_seq) bins l bs ->
  lawful it (emission fs order 0 (if fin then bs else removelast bs)) fin used json.
Proof.
  intros Hu E Eo Ho (N & rep & crep & L) Hf Hbs. pose proof (strategy_of (M := M) best fs bins max_seq seed Hu) as St.
  destruct Hu as (Hfs & Ha & Hb & Hm & Hs).
  unfold packing, pack_dataset in E.
  replace (match max_seq with Some m => m <=? 0 | None => false end) with false in E by (destruct max_seq; [lia|easy]).
  cbn [bind] in E. match type of E with Ok ?x = _ => assert (it = x) as -> by congruence end.
  exact (ex_intro _ _ (ex_intro _ _ (ex_intro _ _ (pack_law fs bins _ _ St Hb permuted seed shuffle_bins group order Eo Ho p l fin used json N rep crep L Hf bs Hbs)))).
Qed.
Lemma packing_lawful {A M} best (fs : list (feature A)) bins max_seq permuted seed shuffle_bins group (p : Iter (element A M)) l fin used json :
  usable fs bins max_seq seed -> permutes permuted -> lawful p l fin used json -> Forall (fits_alone fs) l ->
  exists it bs order, packing best fs bins max_seq permuted seed shuffle_bins group p = Ok it /\
    packs (places best fs max_seq) bins l bs /\ row_order shuffle_bins group order /\
    lawful it (emission fs order 0 (if fin then bs else removelast bs)) fin used json.
Proof.
  intros Hu Hp (N & rep & crep & L) Hf. pose proof (strategy_of (M := M) best fs bins max_seq seed Hu) as St.
  destruct Hu as (Hfs & Ha & Hb & Hm & Hs). destruct (order_exists permuted seed shuffle_bins group Hp Hs) as (order & Ho & Eo).
  destruct (packs_exist fs bins _ _ St Hb l Hf) as (bs & Hbs).
  eexists _, bs, order. split.
  { unfold packing, pack_dataset. destruct max_seq as [m|]; [|reflexivity]. destruct (Z.leb_spec m 0); [lia|reflexivity]. }
  split; [exact Hbs|]. split; [exact Ho|].
  exact (ex_intro _ _ (ex_intro _ _ (ex_intro _ _ (pack_law fs bins _ _ St Hb permuted seed shuffle_bins group order Eo (fun T rows => proj1 (Ho T rows)) p l fin used json N rep crep L Hf bs Hbs)))).
Qed.
