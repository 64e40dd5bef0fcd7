(** Proofs about the model of concat-then-split. *)
From Verif Require Import Base ListFacts MapDatasets Iter IterSpec IterLaw Packing ConcatSplit ConcatSplitSpec Packing_proofs.

Local Arguments Nat.ltb : simpl never. Local Arguments Nat.leb : simpl never. Local Arguments Nat.sub : simpl never. Local Arguments Nat.eqb : simpl never.
Section Abs.
Context {A : Type}.
Variable cfg : config A.
Notation fs0 := (cs_feats cfg).

(** ** Adding an element to a row, on the contents of its features *)

Fixpoint takes (fs : list cfeat) (tok : list nat) (cs : list (list A)) : option (list nat * bool) :=
  match fs, tok, cs with
  | f :: fs', t :: tok', c :: cs' =>
      let av := (cf_len f - t)%nat in
      let n := length c in
      if cf_meta f then if Nat.ltb av n then None else option_map (fun r : list nat * bool => (n :: fst r, snd r)) (takes fs' tok' cs')
      else if Nat.ltb av n then option_map (fun r : list nat * bool => (av :: fst r, true)) (takes fs' tok' cs')
      else option_map (fun r : list nat * bool => (n :: fst r, snd r)) (takes fs' tok' cs')
  | _, _, _ => Some ([], false)
  end.
Fixpoint zero_takes (fs : list cfeat) (tk : list nat) : bool :=
  match fs, tk with f :: fs', t :: tk' => (cf_meta f || Nat.eqb t 0) && zero_takes fs' tk' | _, _ => true end.
Fixpoint lefts (fs : list cfeat) (tk : list nat) (cs : list (list A)) : list (list A) :=
  match fs, tk, cs with f :: fs', t :: tk', c :: cs' => (if cf_meta f then c else firstn t c) :: lefts fs' tk' cs' | _, _, _ => [] end.
Fixpoint rights (fs : list cfeat) (tk : list nat) (cs : list (list A)) : list (list A) :=
  match fs, tk, cs with f :: fs', t :: tk', c :: cs' => (if cf_meta f then c else skipn t c) :: rights fs' tk' cs' | _, _, _ => [] end.
Inductive added : Type := Stuck | Whole | Cut (l r : list (list A)).
Definition add (tok : list nat) (cs : list (list A)) : added :=
  match takes fs0 tok cs with
  | None => Stuck
  | Some (_, false) => Whole
  | Some (tk, true) => if zero_takes fs0 tk then Stuck else Cut (lefts fs0 tk cs) (rights fs0 tk cs)
  end.
Definition plus_tok (tok : list nat) (cs : list (list A)) : list nat := map (fun tc => (fst tc + length (snd tc))%nat) (combine tok cs).

(** An element whose contents are [cs]: not sliced, or with slices that end at its end. *)
Inductive den (b : bool) : list cfeat -> list (value A) -> list (option slice) -> list (list A) -> Prop :=
| den_nil : den b [] [] [] []
| den_meta f fs v vs ss cs : cf_meta f = true -> den b fs vs ss cs -> den b (f :: fs) (v :: vs) (None :: ss) (vlist v :: cs)
| den_fresh f fs v vs ss cs : cf_meta f = false -> b = true -> den b fs vs ss cs ->
    den b (f :: fs) (v :: vs) (Some EmptySlice :: ss) (vlist v :: cs)
| den_part f fs l vs ss cs a : cf_meta f = false -> b = false -> (a <= length l)%nat -> den b fs vs ss cs ->
    den b (f :: fs) (Array l :: vs) (Some (Slice (Z.of_nat a) (Z.of_nat (length l))) :: ss) (skipn a l :: cs).

Lemma pyslice_nat {X} a n (l : list X) : (a + n <= length l)%nat ->
  pyslice (Z.of_nat a) (Z.of_nat a + Z.of_nat n) l = firstn n (skipn a l).
Proof.
  intros H. unfold pyslice, clamp.
  destruct (Z.ltb_spec (Z.of_nat a) 0); [lia|]. destruct (Z.ltb_spec (Z.of_nat a + Z.of_nat n) 0); [lia|].
  rewrite !Z.min_r by lia. rewrite Nat2Z.id. f_equal. lia.
Qed.

Lemma den_contents b fs vs ss cs : den b fs vs ss cs -> map (fun x => vlist (sliced (fst x) (snd x))) (combine vs ss) = cs.
Proof.
  induction 1 as [|f fs v vs ss cs Hm H IH|f fs v vs ss cs Hm Hb H IH|f fs l vs ss cs a Hm Hb Ha H IH]; [easy| | |]; cbn [combine map fst snd]; rewrite IH; f_equal.
  - now destruct v.
  - now destruct v.
  - cbn. replace (Z.of_nat (length l)) with (Z.of_nat a + Z.of_nat (length l - a)) by lia.
    rewrite pyslice_nat by lia. apply firstn_all2. rewrite skipn_length. lia.
Qed.

Lemma den_lengths b fs vs ss cs : den b fs vs ss cs -> length vs = length fs /\ length ss = length fs /\ length cs = length fs.
Proof. induction 1; cbn; lia. Qed.

(** The split points of the code. *)
Fixpoint pts (fs : list cfeat) (ss : list (option slice)) (tok : list nat) (cs : list (list A)) : list (option Z) :=
  match fs, ss, tok, cs with
  | f :: fs', s :: ss', t :: tok', c :: cs' =>
      (if cf_meta f then None
       else if Nat.ltb (cf_len f - t) (length c) then
         Some (match s with Some (Slice a _) => a | _ => 0 end + Z.of_nat (cf_len f - t))
       else Some (Z.of_nat (length c))) :: pts fs' ss' tok' cs'
  | _, _, _, _ => []
  end.
(** The right ones. *)
Fixpoint rpts (fs : list cfeat) (ss : list (option slice)) (tk : list nat) : list (option Z) :=
  match fs, ss, tk with
  | f :: fs', s :: ss', t :: tk' =>
      (if cf_meta f then None else Some (match s with Some (Slice a _) => a | _ => 0 end + Z.of_nat t)) :: rpts fs' ss' tk'
  | _, _, _ => []
  end.

Definition tok_ok (fs : list cfeat) (tok : list nat) : Prop := Forall2 (fun f t => t <= cf_len f)%nat fs tok.

Lemma scan_takes b fs vs ss cs tok : den b fs vs ss cs -> tok_ok fs tok ->
  scan fs vs ss tok = Ok (option_map (fun r => (combine (fst r) (pts fs ss tok cs), snd r)) (takes fs tok cs)).
Proof.
  intros H. revert tok.
  induction H as [|f fs v vs ss cs Hm H IH|f fs v vs ss cs Hm Hb H IH|f fs l vs ss cs a Hm Hb Ha H IH]; intros tok Ht;
    inversion Ht as [|? t ? tok' Hle Ht']; subst; [easy| | |]; cbn [scan takes pts]; rewrite (IH _ Ht');
    (destruct (Nat.ltb_spec (cf_len f) t); [lia|]); rewrite Hm.
  - replace (sliced v None) with v by now destruct v.
    destruct (Nat.ltb _ _); [easy|]. cbn. now destruct (takes fs tok' cs).
  - replace (sliced v (Some EmptySlice)) with v by now destruct v.
    cbn. destruct (Nat.ltb _ _); now destruct (takes fs tok' cs).
  - replace (length (vlist (sliced (Array l) (Some (Slice (Z.of_nat a) (Z.of_nat (length l))))))) with (length (skipn a l)).
    2:{ cbn. replace (Z.of_nat (length l)) with (Z.of_nat a + Z.of_nat (length l - a)) by lia.
        rewrite pyslice_nat by lia. rewrite firstn_length, skipn_length. lia. }
    cbn. destruct (Nat.ltb _ _); now destruct (takes fs tok' cs).
Qed.

Lemma takes_length fs tok cs tk needs : takes fs tok cs = Some (tk, needs) -> length tok = length fs -> length cs = length fs -> length tk = length fs.
Proof.
  revert tok cs tk needs. induction fs as [|f fs IH]; intros [|t tok] [|c cs] tk needs H Ht Hc; cbn in *; try lia.
  - now inversion H.
  - destruct (takes fs tok cs) as [[tk' n']|] eqn:E; [|destruct (cf_meta f), (Nat.ltb _ _); easy].
    specialize (IH tok cs tk' n' E ltac:(lia) ltac:(lia)).
    destruct (cf_meta f), (Nat.ltb _ _); cbn in H; inversion H; subst; cbn; lia.
Qed.

Lemma pts_length fs ss tok cs : length ss = length fs -> length tok = length fs -> length cs = length fs -> length (pts fs ss tok cs) = length fs.
Proof.
  revert ss tok cs. induction fs as [|f fs IH]; intros [|s ss] [|t tok] [|c cs] H1 H2 H3; cbn in *; try lia.
  now rewrite IH by lia.
Qed.

(** If the element is not sliced, or has only one data feature, the split points are right. *)
Lemma pts_fresh fs vs ss cs tok tk needs : den true fs vs ss cs -> takes fs tok cs = Some (tk, needs) -> length tok = length fs ->
  pts fs ss tok cs = rpts fs ss tk.
Proof.
  intros H. revert tok tk needs. induction H as [|f fs v vs ss cs Hm H IH|f fs v vs ss cs Hm Hb H IH|f fs l vs ss cs a Hm Hb Ha H IH];
    intros [|t tok] tk needs E Hl; cbn in Hl; try discriminate; [now inversion E| | ]; cbn [takes] in E; rewrite Hm in E;
    destruct (takes fs tok cs) as [[tk' n']|] eqn:E'; try (destruct (Nat.ltb _ _); discriminate).
  - destruct (Nat.ltb _ _); [easy|]. cbn in E. inversion E; subst. cbn. rewrite Hm. f_equal. apply (IH tok tk' needs); [easy|lia].
  - cbn [pts]. rewrite Hm. destruct (Nat.ltb _ _) eqn:El; cbn in E; inversion E; subst; cbn [rpts]; rewrite Hm; f_equal.
    + apply (IH tok tk' n'); [easy|lia].
    + apply (IH tok tk' needs); [easy|lia].
Qed.

Lemma takes_no_data fs tok cs tk needs : filter (fun f => negb (cf_meta f)) fs = [] -> takes fs tok cs = Some (tk, needs) -> needs = false.
Proof.
  revert tok cs tk needs. induction fs as [|f fs IH]; intros [|t tok] [|c cs] tk needs Hf E; cbn in *; try (now inversion E).
  destruct (cf_meta f); [|easy]. cbn in Hf.
  destruct (Nat.ltb _ _); [easy|]. destruct (takes fs tok cs) as [[tk' n']|] eqn:E'; [|easy].
  cbn in E. inversion E; subst. now apply (IH tok cs tk').
Qed.
Lemma pts_no_data fs ss tok cs tk : filter (fun f => negb (cf_meta f)) fs = [] -> length ss = length fs -> length tok = length fs ->
  length cs = length fs -> length tk = length fs -> pts fs ss tok cs = rpts fs ss tk.
Proof.
  revert ss tok cs tk. induction fs as [|f fs IH]; intros [|s ss] [|t tok] [|c cs] [|k tk] Hf; cbn in *; try easy; intros.
  destruct (cf_meta f); [|easy]. cbn in Hf. f_equal. apply IH; easy || lia.
Qed.
Lemma pts_one fs ss tok cs tk : length (filter (fun f => negb (cf_meta f)) fs) = 1%nat -> length ss = length fs -> length tok = length fs ->
  length cs = length fs -> takes fs tok cs = Some (tk, true) -> pts fs ss tok cs = rpts fs ss tk.
Proof.
  revert ss tok cs tk. induction fs as [|f fs IH]; intros [|s ss] [|t tok] [|c cs] tk Hf Hs Ht Hc E; cbn [length] in *; try lia; [easy|].
  cbn [takes] in E. cbn [filter] in Hf. cbn [pts].
  destruct (takes fs tok cs) as [[tk' n']|] eqn:E'; [|destruct (cf_meta f), (Nat.ltb _ _); easy].
  pose proof (takes_length _ _ _ _ _ E' ltac:(lia) ltac:(lia)) as Hk.
  destruct (cf_meta f) eqn:Hm; cbn [negb] in Hf.
  - destruct (Nat.ltb _ _); [easy|]. cbn in E. inversion E; subst. cbn [rpts]. rewrite Hm. f_equal. apply IH; easy || lia.
  - cbn [length] in Hf. assert (Hn : filter (fun f => negb (cf_meta f)) fs = []) by (apply length_zero_iff_nil; lia).
    pose proof (takes_no_data _ _ _ _ _ Hn E') as ->.
    destruct (Nat.ltb _ _); cbn in E; inversion E; subst. cbn [rpts]. rewrite Hm. f_equal.
    apply pts_no_data; easy || lia.
Qed.

(** Splitting at the right points. *)
Lemma split_slices_ok b fs vs ss cs tk : den b fs vs ss cs -> length tk = length fs ->
  Forall2 (fun f v => cf_meta f = true \/ exists l, v = Array l) fs vs ->
  Forall2 (fun t c => t <= length c)%nat tk cs ->
  forall ls rs, split_slices vs ss (rpts fs ss tk) = (ls, rs) ->
  map (fun x => vlist (sliced (fst x) (snd x))) (combine vs ls) = lefts fs tk cs /\ den false fs vs rs (rights fs tk cs) /\ length ls = length fs.
Proof.
  intros H. revert tk. induction H as [|f fs v vs ss cs Hm H IH|f fs v vs ss cs Hm Hb H IH|f fs l vs ss cs a Hm Hb Ha H IH];
    intros [|t tk] Hl Harr Hle ls rs E; cbn in Hl; try discriminate;
    [cbn in E; inversion E; subst; (split; [easy|split; [apply den_nil|easy]])|..];
    inversion Harr as [|? ? ? ? Hv Harr']; subst; inversion Hle as [|? ? ? ? Hle1 Hle']; subst;
    cbn [rpts split_slices] in E; rewrite Hm in E;
    destruct (split_slices vs ss (rpts fs ss tk)) as [ls' rs'] eqn:E';
    destruct (IH tk ltac:(lia) Harr' Hle' ls' rs' E') as (I1 & I2 & I3).
  - inversion E; subst. cbn [combine map fst snd lefts rights length]. rewrite Hm, I1, I3. repeat split.
    + f_equal. now destruct v.
    + now constructor.
  - destruct Hv as [Hv|[l ->]]; [congruence|]. cbn [bounds vlist] in *.
    inversion E; subst. cbn [combine map fst snd lefts rights length]. rewrite Hm, I1, I3. repeat split.
    + f_equal. cbn [sliced vlist]. exact (pyslice_nat 0 t l Hle1).
    + replace (0 + Z.of_nat t) with (Z.of_nat t) by lia. now constructor.
  - cbn [bounds] in E. inversion E; subst. cbn [combine map fst snd lefts rights length]. rewrite Hm, I1, I3. repeat split.
    + f_equal. cbn [sliced vlist]. rewrite skipn_length in Hle1. now rewrite pyslice_nat by lia.
    + rewrite skipn_length in Hle1. replace (Z.of_nat a + Z.of_nat t) with (Z.of_nat (a + t)) by lia.
      rewrite skipn_skipn. replace (t + a)%nat with (a + t)%nat by lia. constructor; easy || lia.
Qed.

Lemma takes_le fs tok cs tk needs : takes fs tok cs = Some (tk, needs) -> length tok = length fs -> length cs = length fs ->
  Forall2 (fun t c => t <= length c)%nat tk cs.
Proof.
  revert tok cs tk needs. induction fs as [|f fs IH]; intros [|t tok] [|c cs] tk needs E H1 H2; cbn in *; try lia.
  - inversion E. constructor.
  - destruct (takes fs tok cs) as [[tk' n']|] eqn:E'; [|destruct (cf_meta f), (Nat.ltb _ _); easy].
    specialize (IH tok cs tk' n' E' ltac:(lia) ltac:(lia)).
    destruct (cf_meta f), (Nat.ltb_spec (cf_len f - t) (length c)); cbn in E; inversion E; subst; constructor; easy || lia.
Qed.

Lemma fresh_points fs vs ss cs tk : den true fs vs ss cs -> length tk = length fs ->
  forallb (fun p => match p with Some x => x =? 0 | None => true end) (rpts fs ss tk) = zero_takes fs tk.
Proof.
  intros H. revert tk. induction H as [|f fs v vs ss cs Hm H IH|f fs v vs ss cs Hm Hb H IH|f fs l vs ss cs a Hm Hb Ha H IH];
    intros [|t tk] Hl; cbn in Hl; try discriminate; [easy| | ]; cbn [rpts forallb zero_takes]; rewrite Hm, IH by lia; [easy|].
  cbn. f_equal. destruct (Nat.eqb_spec t 0); subst; [easy|]. apply Z.eqb_neq. lia.
Qed.
Lemma part_points b fs vs ss cs tk : den b fs vs ss cs -> length tk = length fs -> zero_takes fs tk = false ->
  forallb (fun p => match p with Some x => x =? 0 | None => true end) (rpts fs ss tk) = false.
Proof.
  intros H. revert tk. induction H as [|f fs v vs ss cs Hm H IH|f fs v vs ss cs Hm Hb H IH|f fs l vs ss cs a Hm Hb Ha H IH];
    intros [|t tk] Hl Hz; cbn in Hl; try discriminate; cbn [rpts forallb zero_takes] in *; rewrite Hm in *; cbn [orb] in Hz.
  - cbn. apply IH; easy || lia.
  - destruct (Nat.eqb_spec t 0); cbn in Hz; subst.
    + rewrite IH by (easy || lia). apply andb_false_r.
    + destruct (Z.eqb_spec (0 + Z.of_nat t) 0); [lia|easy].
  - destruct (Nat.eqb_spec t 0); cbn in Hz; subst.
    + rewrite IH by (easy || lia). apply andb_false_r.
    + destruct (Z.eqb_spec (Z.of_nat a + Z.of_nat t) 0); [lia|easy].
Qed.

(** In an empty row something has place. *)
Lemma takes_empty_row fs tok cs tk : Forall (fun f => 1 <= cf_len f)%nat fs -> Forall (fun t => t = 0%nat) tok -> takes fs tok cs = Some (tk, true) ->
  zero_takes fs tk = false.
Proof.
  revert tok cs tk. induction fs as [|f fs IH]; intros [|t tok] [|c cs] tk Hl Ht E; cbn in E; try discriminate.
  inversion Hl as [|? ? Hl1 Hl']; subst. inversion Ht as [|? ? Ht1 Ht']; subst.
  destruct (takes fs tok cs) as [[tk' n']|] eqn:E'; [|destruct (cf_meta f), (Nat.ltb _ _); easy].
  destruct (cf_meta f) eqn:Hm; cbn [zero_takes].
  - destruct (Nat.ltb _ _); [easy|]. cbn in E. inversion E; subst. cbn [zero_takes]. rewrite Hm. cbn. now apply (IH tok cs).
  - destruct (Nat.ltb _ _); cbn in E; inversion E; subst; cbn [zero_takes]; rewrite Hm; cbn [orb].
    + destruct (Nat.eqb_spec (cf_len f - 0) 0); [lia|easy].
    + rewrite (IH tok cs tk') by easy. apply andb_false_r.
Qed.

(** A cut array of one data feature is not a scalar. *)
Lemma cut_arrays fs vs ss cs tok tk : den true fs vs ss cs -> length (filter (fun f => negb (cf_meta f)) fs) = 1%nat ->
  takes fs tok cs = Some (tk, true) -> zero_takes fs tk = false -> length tok = length fs ->
  Forall2 (fun f v => cf_meta f = true \/ exists l : list A, v = Array l) fs vs.
Proof.
  assert (Hnd : forall fs (vs : list (value A)), filter (fun f => negb (cf_meta f)) fs = [] -> length vs = length fs ->
    Forall2 (fun f v => cf_meta f = true \/ exists l : list A, v = Array l) fs vs).
  { clear. induction fs as [|f fs IH]; intros [|v vs] Hf Hl; cbn in *; try discriminate; [constructor|].
    destruct (cf_meta f) eqn:Hm; [|easy]. cbn in Hf. constructor; [now left|]. apply IH; [easy|lia]. }
  intros H. revert tok tk. induction H as [|f fs v vs ss cs Hm H IH|f fs v vs ss cs Hm Hb H IH|f fs l vs ss cs a Hm Hb Ha H IH];
    intros [|t tok] tk Hf E Hz Hl; cbn in Hl; try discriminate; cbn [filter] in Hf; rewrite Hm in Hf; cbn [negb] in Hf;
    cbn [takes] in E; rewrite Hm in E; destruct (takes fs tok cs) as [[tk' n']|] eqn:E'; try (destruct (Nat.ltb _ _); discriminate).
  - destruct (Nat.ltb _ _); [easy|]. cbn in E. inversion E; subst. constructor; [now left|].
    apply (IH tok tk'); try easy; try lia. cbn [zero_takes] in Hz. now rewrite Hm in Hz.
  - cbn [length] in Hf. assert (Hn : filter (fun f => negb (cf_meta f)) fs = []) by (apply length_zero_iff_nil; lia).
    pose proof (takes_no_data _ _ _ _ _ Hn E') as ->.
    destruct (den_lengths _ _ _ _ _ H) as (Lv & _ & Lc).
    constructor; [right|now apply Hnd].
    destruct (Nat.ltb_spec (cf_len f - t) (length (vlist v))); cbn in E; inversion E; subst.
    cbn [zero_takes] in Hz. rewrite Hm in Hz. cbn [orb] in Hz.
    assert (Hz' : zero_takes fs tk' = true).
    { pose proof (takes_length _ _ _ _ _ E' ltac:(lia) ltac:(lia)) as Hk. clear -Hn Hk. revert tk' Hk.
      induction fs as [|g fs IH]; intros [|t tk] Hk; cbn in *; try easy. destruct (cf_meta g); [|easy]. cbn in *. apply IH; easy || lia. }
    rewrite Hz', andb_true_r in Hz. apply Nat.eqb_neq in Hz.
    destruct v as [x|l]; [cbn in *; lia|now exists l].
Qed.

(** ** Conditions on the contents *)

Notation one := (one_data_feature cfg).
Definition small (fs : list cfeat) (cs : list (list A)) : Prop := Forall2 (fun f c => length c <= cf_len f)%nat fs cs.
Definition meta_small (fs : list cfeat) (cs : list (list A)) : Prop := Forall2 (fun f c => cf_meta f = true -> length c <= cf_len f)%nat fs cs.
Definition data_nonempty (fs : list cfeat) (cs : list (list A)) : Prop := Forall2 (fun f c => cf_meta f = false -> c <> []) fs cs.
Definition vok (cs : list (list A)) : Prop :=
  meta_small fs0 cs /\ (one \/ small fs0 cs) /\ (cs_bos cfg = None \/ (one /\ data_nonempty fs0 cs)).
Definition arrays (fs : list cfeat) (vs : list (value A)) : Prop := Forall2 (fun f v => cf_meta f = true \/ exists l, v = Array l) fs vs.

Hypothesis Hcfg : good_config cfg.

Lemma cfg_len : Forall (fun f => 1 <= cf_len f)%nat fs0.
Proof. eapply Forall_impl; [|exact Hcfg]. cbn. easy. Qed.

Lemma vok_length cs : vok cs -> length cs = length fs0.
Proof. intros (H & _). symmetry. exact (Forall2_length _ _ _ H). Qed.

(** What the takes are. *)
Lemma takes_whole fs tok cs tk : takes fs tok cs = Some (tk, false) -> length tok = length fs -> length cs = length fs ->
  tk = map (@length A) cs /\ (tok_ok fs tok -> tok_ok fs (plus_tok tok cs)).
Proof.
  revert tok cs tk. induction fs as [|f fs IH]; intros [|t tok] [|c cs] tk E H1 H2; cbn [length] in *; try lia.
  - inversion E. split; [easy|]. intros _. constructor.
  - cbn [takes] in E. destruct (takes fs tok cs) as [[tk' n']|] eqn:E'; [|destruct (cf_meta f), (Nat.ltb _ _); easy].
    assert (n' = false /\ tk = length c :: tk' /\ (length c <= cf_len f - t)%nat) as (-> & -> & Hle).
    { destruct (cf_meta f), (Nat.ltb_spec (cf_len f - t) (length c)); cbn in E; inversion E; subst; repeat split; easy || lia. }
    destruct (IH tok cs tk' E' ltac:(lia) ltac:(lia)) as [-> IH2]. split; [easy|].
    intros Ht. inversion Ht; subst. cbn. constructor; [lia|]. now apply IH2.
Qed.

Lemma takes_cut fs tok cs tk : takes fs tok cs = Some (tk, true) -> length tok = length fs -> length cs = length fs -> tok_ok fs tok ->
  tok_ok fs (plus_tok tok (lefts fs tk cs)) /\ length (lefts fs tk cs) = length fs /\
  (meta_small fs cs -> meta_small fs (lefts fs tk cs) /\ meta_small fs (rights fs tk cs)) /\
  (small fs cs -> small fs (lefts fs tk cs) /\ small fs (rights fs tk cs)) /\
  existsb (fun f => negb (cf_meta f)) fs = true.
Proof.
  intros E H1 H2 Ht.
  assert (Hg : forall tk needs, takes fs tok cs = Some (tk, needs) ->
    tok_ok fs (plus_tok tok (lefts fs tk cs)) /\ length (lefts fs tk cs) = length fs /\
    (meta_small fs cs -> meta_small fs (lefts fs tk cs) /\ meta_small fs (rights fs tk cs)) /\
    (small fs cs -> small fs (lefts fs tk cs) /\ small fs (rights fs tk cs)) /\
    (needs = true -> existsb (fun f => negb (cf_meta f)) fs = true)).
  2:{ destruct (Hg _ _ E) as (? & ? & ? & ? & ?). refine (conj _ (conj _ (conj _ (conj _ _)))); auto. }
  clear tk E. revert tok cs H1 H2 Ht. induction fs as [|f fs IH]; intros [|t tok] [|c cs] H1 H2 Ht tk needs E; cbn [length] in *; try lia.
  - inversion E; subst. cbn. repeat split; easy || constructor.
  - cbn [takes] in E. destruct (takes fs tok cs) as [[tk' n']|] eqn:E'; [|destruct (cf_meta f), (Nat.ltb _ _); easy].
    inversion Ht as [|? ? ? ? Hle Ht']; subst.
    destruct (IH tok cs ltac:(lia) ltac:(lia) Ht' tk' n' E') as (I1 & I2 & I3 & I4 & I5). clear IH.
    assert (exists k, tk = k :: tk' /\ (k <= length c)%nat /\ (k <= cf_len f - t)%nat /\ (cf_meta f = true -> k = length c) /\ (needs = true -> n' = true \/ cf_meta f = false)) as (k & -> & K1 & K2 & K3 & K4).
    { destruct (cf_meta f), (Nat.ltb_spec (cf_len f - t) (length c)); cbn in E; inversion E; subst; eexists; (split; [reflexivity|]); repeat split; easy || lia || auto. }
    cbn [lefts rights]. repeat split.
    + cbn. constructor; [|exact I1]. destruct (cf_meta f); [rewrite <- K3 by easy; lia|rewrite firstn_length; lia].
    + cbn [length]. lia.
    + inversion H; subst. constructor; [|now apply I3]. intros M. rewrite M in *. auto.
    + inversion H; subst. constructor; [|now apply I3]. intros M. rewrite M in *. auto.
    + inversion H; subst. constructor; [|now apply I4]. destruct (cf_meta f); [easy|]. rewrite firstn_length. lia.
    + inversion H; subst. constructor; [|now apply I4]. destruct (cf_meta f); [easy|]. rewrite skipn_length. lia.
    + intros N. cbn. destruct (K4 N) as [->|M]; [|now rewrite M]. rewrite (I5 eq_refl). apply orb_true_r.
Qed.

Lemma takes_cut_nonempty fs tok cs tk : length (filter (fun f => negb (cf_meta f)) fs) = 1%nat -> takes fs tok cs = Some (tk, true) ->
  length tok = length fs -> length cs = length fs -> zero_takes fs tk = false ->
  data_nonempty fs (lefts fs tk cs) /\ data_nonempty fs (rights fs tk cs).
Proof.
  assert (Hnd : forall fs (xs : list (list A)), filter (fun f => negb (cf_meta f)) fs = [] -> length xs = length fs -> data_nonempty fs xs).
  { clear. induction fs as [|f fs IH]; intros [|v vs] Hf Hl; cbn in *; try discriminate; [constructor|].
    destruct (cf_meta f) eqn:Hm; [|easy]. cbn in Hf. constructor; [congruence|]. apply IH; [easy|lia]. }
  revert tok cs tk. induction fs as [|f fs IH]; intros [|t tok] [|c cs] tk Hf E H1 H2 Hz; cbn [length] in *; try lia; [easy|].
  cbn [takes] in E. destruct (takes fs tok cs) as [[tk' n']|] eqn:E'; [|destruct (cf_meta f), (Nat.ltb _ _); easy].
  cbn [filter] in Hf. destruct (cf_meta f) eqn:Hm; cbn [negb] in Hf.
  - destruct (Nat.ltb _ _); [easy|]. cbn in E. inversion E; subst. cbn [zero_takes] in Hz. rewrite Hm in Hz.
    destruct (IH tok cs tk' Hf E' ltac:(lia) ltac:(lia) Hz) as [I1 I2].
    cbn [lefts rights]. split; constructor; try easy; congruence.
  - cbn [length] in Hf. assert (Hn : filter (fun f => negb (cf_meta f)) fs = []) by (apply length_zero_iff_nil; lia).
    pose proof (takes_no_data _ _ _ _ _ Hn E') as ->.
    pose proof (takes_length _ _ _ _ _ E' ltac:(lia) ltac:(lia)) as Hk.
    destruct (Nat.ltb_spec (cf_len f - t) (length c)); cbn in E; inversion E; subst. cbn [zero_takes] in Hz. rewrite Hm in Hz. cbn [orb] in Hz.
    assert (Hz' : zero_takes fs tk' = true).
    { clear -Hn Hk. revert tk' Hk. induction fs as [|g fs IH]; intros [|t tk] Hk; cbn in *; try easy. destruct (cf_meta g); [|easy]. cbn in *. apply IH; easy || lia. }
    rewrite Hz', andb_true_r in Hz. apply Nat.eqb_neq in Hz.
    assert (Hll : forall fs (cs : list (list A)) tk, length tk = length fs -> length cs = length fs -> length (lefts fs tk cs) = length fs /\ length (rights fs tk cs) = length fs).
    { clear. induction fs as [|f fs IH]; intros [|c cs] [|t tk] H1 H2; cbn in *; try lia. destruct (IH cs tk); lia. }
    destruct (Hll fs cs tk' Hk ltac:(lia)).
    cbn [lefts rights]. rewrite Hm. split; constructor; try (now apply Hnd); intros _ Hnil; apply (f_equal (@length A)) in Hnil; cbn in Hnil.
    + rewrite firstn_length in Hnil. lia.
    + rewrite skipn_length in Hnil. lia.
Qed.

Lemma combine_fst_tokens tok (tk : list nat) (ps : list (option Z)) : length tk = length ps ->
  map (fun ta : nat * (nat * option Z) => (fst ta + fst (snd ta))%nat) (combine tok (combine tk ps)) =
  map (fun tc : nat * nat => (fst tc + snd tc)%nat) (combine tok tk).
Proof.
  revert tk ps. induction tok as [|t tok IH]; intros [|k tk] [|q ps] H; cbn in *; try easy. f_equal. apply IH. lia.
Qed.
Lemma combine_lengths tok (cs : list (list A)) :
  map (fun tc : nat * nat => (fst tc + snd tc)%nat) (combine tok (map (@length A) cs)) = plus_tok tok cs.
Proof. revert cs. induction tok as [|t tok IH]; intros [|c cs]; cbn; try easy. f_equal. apply IH. Qed.
Lemma map_snd_combine' {X Y} (xs : list X) (ys : list Y) : length xs = length ys -> map snd (combine xs ys) = ys.
Proof. revert ys. induction xs as [|x xs IH]; intros [|y ys] H; cbn in *; try easy. f_equal. apply IH. lia. Qed.

Lemma add_empty_row cs : vok cs -> add (map (fun _ => 0%nat) fs0) cs <> Stuck.
Proof.
  intros (Hm & _). unfold add.
  assert (Hz : Forall (fun t => t = 0%nat) (map (fun _ : cfeat => 0%nat) fs0)) by (apply Forall_forall; intros x Hx; apply in_map_iff in Hx as (? & <- & _); easy).
  destruct (takes fs0 _ cs) as [[tk [|]]|] eqn:E; [|easy|].
  - now rewrite (takes_empty_row _ _ _ _ cfg_len Hz E).
  - exfalso. clear Hz. revert E. clear -Hm. induction Hm as [|f c fs cs H Hm IH]; cbn; [easy|].
    destruct (takes fs _ cs) as [[tk n]|]; [|easy]. clear IH.
    destruct (cf_meta f); [|now destruct (Nat.ltb _ _)]. specialize (H eq_refl).
    destruct (Nat.ltb_spec (cf_len f - 0) (length c)); [lia|easy].
Qed.

Lemma maybe_add_ok {C} b vs ss cs tok (st : C) buf :
  den b fs0 vs ss cs -> vok cs -> tok_ok fs0 tok -> (b = true -> one \/ arrays fs0 vs) -> (b = false -> Forall (fun t => t = 0%nat) tok) ->
  match add tok cs with
  | Stuck => exists tok', maybe_add cfg (mkEl st vs ss) buf tok = Ok (Some (mkEl st vs ss), buf, tok')
  | Whole => maybe_add cfg (mkEl st vs ss) buf tok = Ok (None, buf ++ [mkEl st vs ss], plus_tok tok cs) /\ tok_ok fs0 (plus_tok tok cs)
  | Cut l r => exists ls rs tok', maybe_add cfg (mkEl st vs ss) buf tok = Ok (Some (mkEl st vs rs), buf ++ [mkEl st vs ls], tok') /\
      el_contents (mkEl st vs ls) = l /\ den false fs0 vs rs r /\ vok l /\ vok r /\ tok_ok fs0 (plus_tok tok l) /\
      existsb (fun f => negb (cf_meta f)) fs0 = true
  end.
Proof.
  intros Hd Hv Ht Harr Hz. pose proof (scan_takes _ _ _ _ _ _ Hd Ht) as Hs.
  destruct (den_lengths _ _ _ _ _ Hd) as (Lv & Ls & Lc). pose proof (eq_sym (Forall2_length _ _ _ Ht)) as Lt.
  unfold add, maybe_add. cbn [el_feats el_slices]. rewrite Hs. cbn [bind].
  destruct (takes fs0 tok cs) as [[tk [|]]|] eqn:E; cbn [option_map fst snd].
  - pose proof (takes_length _ _ _ _ _ E Lt Lc) as Lk.
    pose proof (pts_length fs0 ss tok cs Ls Lt Lc) as Lp.
    assert (Hp : pts fs0 ss tok cs = rpts fs0 ss tk).
    { destruct b; [now apply (pts_fresh _ vs _ _ _ _ true)|].
      destruct Hv as (_ & [H1|Hsm] & _); [now apply pts_one|]. exfalso. specialize (Hz eq_refl).
      clear -Hsm Hz E Lt. revert tok tk E Hz Lt. induction Hsm as [|f c fs cs H Hsm IH]; intros [|t tok] tk E Hz Lt; cbn in *; try discriminate.
      inversion Hz; subst. destruct (takes fs tok cs) as [[tk' n']|] eqn:E'; [|now destruct (cf_meta f), (Nat.ltb _ _)].
      destruct (Nat.ltb_spec (cf_len f - 0) (length c)); [lia|].
      assert (n' = true) as -> by (destruct (cf_meta f); cbn in E; now inversion E). apply (IH tok tk'); easy || lia. }
    rewrite map_snd_combine' by lia. rewrite Hp.
    destruct (zero_takes fs0 tk) eqn:Ez.
    + destruct b.
      * unfold split_element. rewrite (fresh_points _ vs _ cs) by (easy || lia). rewrite Ez. eauto.
      * rewrite (takes_empty_row _ _ _ _ cfg_len (Hz eq_refl) E) in Ez. easy.
    + unfold split_element. rewrite (part_points b _ vs _ cs) by (easy || lia). cbn [el_feats el_slices el_state].
      destruct (split_slices vs ss (rpts fs0 ss tk)) as [ls rs] eqn:Es.
      assert (Ha : arrays fs0 vs).
      { destruct b.
        - destruct (Harr eq_refl) as [H1|Ha]; [|easy]. now apply (cut_arrays _ _ ss cs tok tk).
        - clear -Hd. remember false as b eqn:Eb. induction Hd; subst; [constructor| |easy|]; constructor; eauto. }
      destruct (split_slices_ok b _ _ _ _ _ Hd Lk Ha (takes_le _ _ _ _ _ E Lt Lc) ls rs Es) as (S1 & S2 & S3).
      destruct (takes_cut _ _ _ _ E Lt Lc Ht) as (T1 & T2 & T3 & T4 & T5).
      destruct Hv as (V1 & V2 & V3). destruct (T3 V1) as [M1 M2].
      eexists ls, rs, _. split; [reflexivity|]. split; [exact S1|]. split; [exact S2|].
      repeat split; try easy.
      * destruct V2 as [V2|V2]; [now left|right; now apply T4].
      * destruct V3 as [V3|[V3 V4]]; [now left|right]. split; [easy|]. now apply (takes_cut_nonempty _ tok cs tk).
      * destruct V2 as [V2|V2]; [now left|right; now apply T4].
      * destruct V3 as [V3|[V3 V4]]; [now left|right]. split; [easy|]. now apply (takes_cut_nonempty _ tok cs tk).
  - destruct (takes_whole _ _ _ _ E Lt Lc) as [-> Hw]. split; [|now apply Hw].
    pose proof (pts_length fs0 ss tok cs Ls Lt Lc) as Lp.
    rewrite combine_fst_tokens by (rewrite map_length; lia). rewrite combine_lengths. reflexivity.
  - eauto.
Qed.

(** ** Filling one row *)

Fixpoint fullb (fs : list cfeat) (cs : list (list A)) (has : bool) : bool :=
  match fs, cs with
  | f :: fs', c :: cs' => if Nat.ltb (cf_len f) (length c) then false else fullb fs' cs' (has || Nat.eqb (length c) (cf_len f))
  | _, _ => has
  end.
Definition passb (cs : list (list A)) : bool := negb (cs_split_full cfg) && fullb fs0 cs false.

Lemma full_length_den fs vs ss cs has : den true fs vs ss cs -> full_length fs vs ss has = fullb fs cs has.
Proof.
  intros H. revert has. induction H as [|f fs v vs ss cs Hm H IH|f fs v vs ss cs Hm Hb H IH|f fs l vs ss cs a Hm Hb Ha H IH]; intros has; [easy| | |easy];
    cbn [full_length fullb]; rewrite IH; now destruct v.
Qed.
Lemma fullb_small fs cs has : fullb fs cs has = true -> length cs = length fs -> small fs cs.
Proof.
  revert cs has. induction fs as [|f fs IH]; intros [|c cs] has H Hl; cbn in *; try discriminate; [constructor|].
  destruct (Nat.ltb_spec (cf_len f) (length c)); [easy|]. constructor; [lia|]. eapply IH; [exact H|lia].
Qed.

Definition vel : Type := nat * bool * list (list A).
Fixpoint fill (tok : list nat) (st : list vel) : list (@piece A) * list (@piece A) * list vel :=
  match st with
  | [] => ([], [], [])
  | (i, b, cs) :: st' =>
      if b && passb cs then let '(bf, ps, r) := fill tok st' in (bf, (i, cs) :: ps, r)
      else
        match add tok cs with
        | Stuck => ([], [], (i, b, cs) :: st')
        | Whole => let '(bf, ps, r) := fill (plus_tok tok cs) st' in ((i, cs) :: bf, ps, r)
        | Cut l r => ([(i, l)], [], (i, false, r) :: st')
        end
  end.
Definition tok0 : list nat := map (fun _ => 0%nat) fs0.
Definition group (bf ps : list (@piece A)) : list (list (@piece A)) :=
  (match bf with [] => [] | _ => [bf] end) ++ map (fun q => [q]) ps.

Lemma add_ok tok cs : vok cs -> tok_ok fs0 tok ->
  match add tok cs with
  | Stuck => True
  | Whole => tok_ok fs0 (plus_tok tok cs)
  | Cut l r => vok l /\ vok r /\ tok_ok fs0 (plus_tok tok l) /\ existsb (fun f => negb (cf_meta f)) fs0 = true
  end.
Proof.
  intros Hv Ht. pose proof (vok_length _ Hv) as Lc. pose proof (eq_sym (Forall2_length _ _ _ Ht)) as Lt. unfold add.
  destruct (takes fs0 tok cs) as [[tk [|]]|] eqn:E; [|now apply (takes_whole _ _ _ _ E Lt Lc)|easy].
  destruct (zero_takes fs0 tk) eqn:Ez; [easy|].
  destruct (takes_cut _ _ _ _ E Lt Lc Ht) as (T1 & T2 & T3 & T4 & T5).
  destruct Hv as (V1 & V2 & V3). destruct (T3 V1) as [M1 M2].
  repeat split; try easy.
  - destruct V2 as [V2|V2]; [now left|right; now apply T4].
  - destruct V3 as [V3|[V3 V4]]; [now left|right]. split; [easy|]. now apply (takes_cut_nonempty _ tok cs tk).
  - destruct V2 as [V2|V2]; [now left|right; now apply T4].
  - destruct V3 as [V3|[V3 V4]]; [now left|right]. split; [easy|]. now apply (takes_cut_nonempty _ tok cs tk).
Qed.

Lemma tok_ok0 : tok_ok fs0 tok0.
Proof. unfold tok0, tok_ok. induction fs0; constructor; [lia|easy]. Qed.
Lemma tok0_nth i : nth i tok0 0%nat = 0%nat.
Proof. unfold tok0. revert i. induction fs0; intros [|i]; cbn; auto. Qed.

Lemma plus_tok_nth tok cs i : length tok = length cs -> nth i (plus_tok tok cs) 0%nat = (nth i tok 0 + length (nth i cs []))%nat.
Proof.
  unfold plus_tok. revert cs i. induction tok as [|t tok IH]; intros [|c cs] [|i] H; cbn in *; try easy. apply IH. lia.
Qed.
Lemma tok_ok_limit fs tok i f : tok_ok fs tok -> nth_error fs i = Some f -> (nth i tok 0 <= cf_len f)%nat.
Proof. intros H. revert i. induction H as [|g t fs tok Hle H IH]; intros [|i] E; cbn in *; try easy; [now inversion E; subst|now apply IH]. Qed.

Lemma fill_rows tok st bf ps r : Forall (fun v : vel => vok (snd v)) st -> tok_ok fs0 tok -> fill tok st = (bf, ps, r) ->
  Forall (fun v : vel => vok (snd v)) r /\ Forall (fun q => vok (snd q)) bf /\ Forall (fun q => vok (snd q) /\ passb (snd q) = true) ps /\
  forall i f, nth_error fs0 i = Some f -> (nth i tok 0 + used i bf <= cf_len f)%nat.
Proof.
  intros H. revert tok bf ps r. induction H as [|[[k b] cs] st Hv H IH]; intros tok bf ps r Ht E; cbn [fill snd] in *.
  - inversion E; subst. repeat split; try constructor. intros i f Hi. cbn. rewrite Nat.add_0_r. now apply (tok_ok_limit fs0).
  - destruct (b && passb cs) eqn:Ep.
    + destruct (fill tok st) as [[bf' ps'] r'] eqn:E'. inversion E; subst.
      destruct (IH _ _ _ _ Ht E') as (I1 & I2 & I3 & I4). repeat split; try easy. constructor; [|easy]. apply andb_true_iff in Ep. easy.
    + pose proof (add_ok tok cs Hv Ht) as Ha. destruct (add tok cs) as [| |l r'].
      * inversion E; subst. repeat split; try constructor; try easy. intros i f Hi. cbn. rewrite Nat.add_0_r. now apply (tok_ok_limit fs0).
      * destruct (fill (plus_tok tok cs) st) as [[bf' ps'] r'] eqn:E'. inversion E; subst.
        destruct (IH _ _ _ _ Ha E') as (I1 & I2 & I3 & I4). repeat split; try easy; [now constructor|].
        intros i f Hi. specialize (I4 i f Hi).
        rewrite plus_tok_nth in I4 by (rewrite (vok_length _ Hv); symmetry; apply (Forall2_length _ _ _ Ht)).
        change (used i ((k, cs) :: bf')) with (length (nth i cs []) + used i bf')%nat. lia.
      * destruct Ha as (V1 & V2 & T & _). inversion E; subst. repeat split; try constructor; try easy.
        intros i f Hi. pose proof (tok_ok_limit _ _ _ _ T Hi) as Hl.
        rewrite plus_tok_nth in Hl by (rewrite (vok_length _ V1); symmetry; apply (Forall2_length _ _ _ Ht)).
        unfold used, part. cbn. lia.
Qed.

(** ** Packing a row *)

Definition row_ok (row : list (@piece A)) : Prop :=
  Forall (fun q => length (snd q) = length fs0) row /\
  (forall i f, nth_error fs0 i = Some f -> (used i row <= cf_len f)%nat) /\
  (cs_bos cfg = None \/ forall i q, is_data cfg i -> In q row -> part i q <> []).

Lemma slice_assign_repeat {X} (pre q : list X) z m : (length q <= m)%nat ->
  slice_assign (length pre) q (pre ++ List.repeat z m) = Ok (pre ++ q ++ List.repeat z (m - length q)).
Proof.
  intros H. unfold slice_assign. rewrite app_length, repeat_length. destruct (Nat.leb_spec (length pre + length q) (length pre + m)); [|lia].
  rewrite firstn_app, firstn_all, Nat.sub_diag. cbn [firstn]. rewrite app_nil_r. do 3 f_equal.
  rewrite skipn_app, skipn_all2 by lia. cbn [app]. rewrite repeat_skipn. f_equal. lia.
Qed.

Lemma with_bos_length f (q : list A) : length (with_bos cfg f q) = length q.
Proof. unfold with_bos. destruct (if cf_bos f then cs_bos cfg else None); [|easy]. now destruct q. Qed.

Lemma pack_column_ok f col : ((if cf_bos f then cs_bos cfg else None) = None \/ Forall (fun q => q <> []) col) ->
  forall k pre spre ppre m, length spre = length pre -> length ppre = length pre -> (list_sum (map (@length A) col) <= m)%nat ->
  pack_column cfg f k (length pre) col (pre ++ List.repeat (cs_zero cfg) m) (spre ++ List.repeat 0 m) (ppre ++ List.repeat 0 m) =
  Ok (pre ++ concat (map (with_bos cfg f) col) ++ List.repeat (cs_zero cfg) (m - list_sum (map (@length A) col)),
      spre ++ (if cf_meta f then List.repeat 0 m else segment_ids k col ++ List.repeat 0 (m - list_sum (map (@length A) col))),
      ppre ++ (if cf_meta f then List.repeat 0 m else concat (map (fun q => zrange 0 (length q)) col) ++ List.repeat 0 (m - list_sum (map (@length A) col)))).
Proof.
  induction col as [|q col IH]; intros Hb k pre spre ppre m H1 H2 Hm.
  - cbn. rewrite Nat.sub_0_r. now destruct (cf_meta f).
  - cbn [map] in Hm. change (list_sum (?a :: ?b)) with (a + list_sum b)%nat in Hm.
    cbn [pack_column]. rewrite app_length, repeat_length. destruct (Nat.ltb_spec (length pre + m) (length pre + length q)); [lia|].
    rewrite slice_assign_repeat by lia. cbn [bind].
    assert (Hval : (match (if cf_bos f then cs_bos cfg else None) with
          | Some b => if Nat.ltb (length pre) (length (pre ++ q ++ List.repeat (cs_zero cfg) (m - length q)))
                      then Ok (update_nth (length pre) b (pre ++ q ++ List.repeat (cs_zero cfg) (m - length q))) else Raise IndexError
          | None => Ok (pre ++ q ++ List.repeat (cs_zero cfg) (m - length q))
          end) = Ok ((pre ++ with_bos cfg f q) ++ List.repeat (cs_zero cfg) (m - length q))).
    { unfold with_bos. rewrite <- app_assoc. destruct (if cf_bos f then cs_bos cfg else None) as [b|] eqn:Eb; [|easy].
      destruct Hb as [Hb|Hb]; [easy|]. inversion Hb as [|? ? Hq _]; subst. destruct q as [|x q]; [easy|].
      rewrite (proj2 (Nat.ltb_lt _ _)) by (rewrite !app_length; cbn; lia). now rewrite update_nth_app2. }
    rewrite Hval. cbn [bind].
    assert (Hb' : (if cf_bos f then cs_bos cfg else None) = None \/ Forall (fun q => q <> []) col)
      by (destruct Hb as [Hb|Hb]; [now left|right; now inversion Hb]).
    assert (Hlen : (length pre + length q)%nat = length (pre ++ with_bos cfg f q)) by now rewrite app_length, with_bos_length.
    cbn [map concat]. change (list_sum (?a :: ?b)) with (a + list_sum b)%nat.
    destruct (cf_meta f) eqn:Hmeta.
    + rewrite Hlen.
      assert (Em : List.repeat 0 m = List.repeat 0 (length q) ++ List.repeat 0 (m - length q)) by (rewrite <- repeat_app; f_equal; lia).
      rewrite Em, !app_assoc.
      rewrite (IH Hb' (k + 1) (pre ++ with_bos cfg f q) (spre ++ List.repeat 0 (length q)) (ppre ++ List.repeat 0 (length q)) (m - length q)%nat)
        by (rewrite ?app_length, ?repeat_length, ?with_bos_length; lia).
      rewrite <- !app_assoc. replace (m - (length q + list_sum (map (length (A:=A)) col)))%nat with (m - length q - list_sum (map (length (A:=A)) col))%nat by lia. reflexivity.
    + rewrite <- H1 at 1. rewrite <- (repeat_length k (length q)) at 3.
      rewrite slice_assign_repeat by (rewrite repeat_length; lia). cbn [bind].
      rewrite <- H2 at 1. rewrite slice_assign_repeat by (rewrite zrange_length; lia). cbn [bind].
      rewrite Hlen, repeat_length, zrange_length, !app_assoc.
      rewrite (IH Hb' (k + 1) (pre ++ with_bos cfg f q) (spre ++ List.repeat k (length q)) (ppre ++ zrange 0 (length q)) (m - length q)%nat)
        by (rewrite ?app_length, ?repeat_length, ?with_bos_length, ?zrange_length; lia).
      cbn [segment_ids]. rewrite <- !app_assoc. replace (m - (length q + list_sum (map (length (A:=A)) col)))%nat with (m - length q - list_sum (map (length (A:=A)) col))%nat by lia. reflexivity.
Qed.

Lemma segment_ids_length (k : Z) (col : list (list A)) : length (segment_ids k col) = list_sum (map (@length A) col).
Proof. revert k. induction col as [|q col IH]; intros k; cbn; [easy|]. now rewrite app_length, repeat_length, IH. Qed.
Lemma concat_length' {X} (ls : list (list X)) : length (concat ls) = list_sum (map (@length X) ls).
Proof. induction ls; cbn; [easy|]. now rewrite app_length, IHls. Qed.

Lemma pack_features_ok row : row_ok row -> forall fs pre, fs0 = pre ++ fs ->
  pack_features cfg fs (map (fun i => map (fun e => nth i e []) (map snd row)) (seq (length pre) (length fs))) = Ok (show_features cfg (length pre) fs row).
Proof.
  intros (Hl & Hr & Hb). induction fs as [|f fs IH]; intros pre E; [easy|]. cbn [length seq map pack_features show_features].
  assert (Hf : nth_error fs0 (length pre) = Some f) by (rewrite E, nth_error_app2, Nat.sub_diag by lia; easy).
  specialize (Hr _ _ Hf). unfold used in Hr. rewrite map_map.
  set (col := map (fun q => nth (length pre) (snd q) []) row).
  assert (Hcol : (if cf_bos f then cs_bos cfg else None) = None \/ Forall (fun q => q <> []) col).
  { destruct (cf_bos f) eqn:Eb; [|now left]. destruct Hb as [Hb|Hb]; [now left|right].
    apply Forall_forall. intros x Hx. apply in_map_iff in Hx as (q & <- & Hq). apply (Hb (length pre) q); [|easy].
    exists f. split; [easy|]. pose proof Hcfg as Hc. unfold good_config in Hc. rewrite Forall_forall in Hc.
    destruct (Hc f (nth_error_In _ _ Hf)) as [_ Hmb]. rewrite Eb, andb_true_r in Hmb. easy. }
  assert (Hsum : (list_sum (map (@length A) col) <= cf_len f)%nat) by (unfold col; rewrite map_map; exact Hr).
  pose proof (pack_column_ok f col Hcol 1 [] [] [] (cf_len f) eq_refl eq_refl Hsum) as Hpc. cbn [length app] in Hpc. rewrite Hpc. cbn [bind].
  replace (S (length pre)) with (length (pre ++ [f])) by (rewrite app_length; cbn; lia).
  rewrite (IH (pre ++ [f])) by (rewrite <- app_assoc; exact E). cbn [bind app]. do 2 f_equal.
  unfold show_feature, pad. fold col. change (map (part (length pre)) row) with col.
  assert (Ec : map (length (A:=A)) (map (with_bos cfg f) col) = map (@length A) col)
    by (rewrite map_map; apply map_ext; intros x; apply with_bos_length).
  assert (Ez : map (length (A:=Z)) (map (fun q : list A => zrange 0 (length q)) col) = map (@length A) col)
    by (rewrite map_map; apply map_ext; intros x; apply zrange_length).
  rewrite !concat_length', segment_ids_length, Ec, Ez. now destruct (cf_meta f).
Qed.

Lemma pack_show {C} (es : list (cts_element A C)) row : map el_contents es = map snd row -> row <> [] -> row_ok row ->
  pack_elements cfg es = Ok (show_row cfg row).
Proof.
  intros E Hne Hr. unfold pack_elements. destruct es as [|e es]; [destruct row; [easy|discriminate]|].
  rewrite E. unfold columns, show_row. exact (pack_features_ok row Hr fs0 [] eq_refl).
Qed.

Lemma Forall2_nth {X Y} (P : X -> Y -> Prop) xs ys i x d : Forall2 P xs ys -> nth_error xs i = Some x -> P x (nth i ys d).
Proof. intros H. revert i. induction H; intros [|i] E; cbn in *; try easy; [now inversion E; subst|now apply IHForall2]. Qed.

Lemma vok_row_ok row : Forall (fun q => vok (snd q)) row -> (forall i f, nth_error fs0 i = Some f -> (used i row <= cf_len f)%nat) -> row_ok row.
Proof.
  intros H Hu. repeat split; [|easy|].
  - eapply Forall_impl; [|exact H]. intros q. apply vok_length.
  - destruct (cs_bos cfg) eqn:Eb; [|now left]. right. intros i q (f & Hi & Hm) Hq. rewrite Forall_forall in H.
    destruct (H q Hq) as (_ & _ & [H3|[_ H3]]); [congruence|]. exact (Forall2_nth _ _ _ _ _ [] H3 Hi Hm).
Qed.
Lemma pass_row_ok q : vok (snd q) -> passb (snd q) = true -> row_ok [q].
Proof.
  intros Hv Hp. apply vok_row_ok; [now constructor|]. intros i f Hi. unfold used, part. cbn. rewrite Nat.add_0_r.
  apply andb_true_iff in Hp as [_ Hp]. apply fullb_small in Hp; [|now apply vok_length].
  exact (Forall2_nth _ _ _ _ _ [] Hp Hi).
Qed.
End Abs.

(** ** The iterator *)

Lemma Forall2_intro {X Y} (P : X -> Y -> Prop) xs ys d : length xs = length ys ->
  (forall i x, nth_error xs i = Some x -> P x (nth i ys d)) -> Forall2 P xs ys.
Proof.
  revert ys. induction xs as [|x xs IH]; intros [|y ys] Hl H; cbn in Hl; try discriminate; constructor.
  - exact (H 0%nat x eq_refl).
  - apply IH; [lia|]. intros i. exact (H (S i)).
Qed.

Fixpoint number {A} (i : nat) (l : list (list (value A))) : list (@vel A) :=
  match l with [] => [] | e :: l' => (i, true, values_of e) :: number (S i) l' end.

(** ** All rows *)
Section Packs.
Context {A : Type}.
Variable cfg : config A.
Notation fs0 := (cs_feats cfg).
Hypothesis Hcfg : good_config cfg.
Variable fin : bool.
Inductive packsv : list (@vel A) -> list (list (@piece A)) -> Prop :=
| pv_nil : packsv [] []
| pv_last st bf ps : st <> [] -> fill cfg (tok0 cfg) st = (bf, ps, []) -> packsv st (if fin then group bf ps else [])
| pv_more st bf ps r rows : st <> [] -> fill cfg (tok0 cfg) st = (bf, ps, r) -> r <> [] -> packsv r rows -> packsv st (group bf ps ++ rows).

Fixpoint dsum (fs : list cfeat) (cs : list (list A)) : nat :=
  match fs, cs with f :: fs', c :: cs' => ((if cf_meta f then 0 else length c) + dsum fs' cs')%nat | _, _ => 0%nat end.
Fixpoint msize (st : list (@vel A)) : nat := match st with [] => 0%nat | v :: st' => (S (dsum fs0 (snd v)) + msize st')%nat end.

Lemma rights_smaller fs tk cs : Forall2 (fun t c => t <= length c)%nat tk cs ->
  (dsum fs (rights fs tk cs) <= dsum fs cs)%nat /\ (zero_takes fs tk = false -> dsum fs (rights fs tk cs) < dsum fs cs)%nat.
Proof.
  intros H. revert fs. induction H as [|t c tk cs Hle H IH]; intros [|f fs]; cbn; try (split; [lia|easy]).
  destruct (IH fs) as [I1 I2]. destruct (cf_meta f); cbn.
  - split; [lia|]. intros Hz. specialize (I2 Hz). lia.
  - rewrite skipn_length. split; [lia|]. intros Hz. destruct (Nat.eqb_spec t 0) as [E|E]; cbn in Hz; [specialize (I2 Hz); lia|lia].
Qed.

Lemma fill_smaller tok st bf ps r : Forall (fun v : vel => vok cfg (snd v)) st -> tok_ok fs0 tok -> fill cfg tok st = (bf, ps, r) ->
  (msize r <= msize st)%nat /\ (bf <> [] \/ ps <> [] -> msize r < msize st)%nat.
Proof.
  intros H. revert tok bf ps r. induction H as [|[[k b] cs] st Hv H IH]; intros tok bf ps r Ht E; cbn [fill snd] in *.
  - inversion E; subst. cbn. split; [lia|]. now intros [|].
  - destruct (b && passb cfg cs) eqn:Ep.
    + destruct (fill cfg tok st) as [[bf' ps'] r'] eqn:E'. inversion E; subst. destruct (IH _ _ _ _ Ht E'). cbn [msize snd]. lia.
    + pose proof (add_ok cfg tok cs Hv Ht) as Ha. pose proof (vok_length _ _ Hv) as Lc. pose proof (eq_sym (Forall2_length _ _ _ Ht)) as Lt.
      destruct (add cfg tok cs) as [| |x y] eqn:Eadd.
      * inversion E; subst. split; [apply le_n|]. now intros [|].
      * destruct (fill cfg (plus_tok tok cs) st) as [[bf' ps'] r'] eqn:E'. inversion E; subst. destruct (IH _ _ _ _ Ha E'). cbn [msize snd]. lia.
      * inversion E; subst. unfold add in Eadd. destruct (takes fs0 tok cs) as [[tk [|]]|] eqn:Et; try discriminate.
        destruct (zero_takes fs0 tk) eqn:Ez; [discriminate|]. inversion Eadd; subst.
        destruct (rights_smaller fs0 tk cs (takes_le _ _ _ _ _ Et Lt Lc)) as [_ Hs]. specialize (Hs Ez). cbn [msize snd]. lia.
Qed.

Lemma fill_nonempty st bf ps r : st <> [] -> Forall (fun v : vel => vok cfg (snd v)) st -> fill cfg (tok0 cfg) st = (bf, ps, r) -> bf <> [] \/ ps <> [].
Proof.
  intros Hne Hv E. destruct st as [|[[k b] cs] st]; [easy|]. inversion Hv as [|? ? Hv1 Hv2]; subst. cbn [fill snd] in *.
  destruct (b && passb cfg cs).
  - destruct (fill cfg (tok0 cfg) st) as [[bf' ps'] r']. inversion E; subst. now right.
  - pose proof (add_empty_row cfg Hcfg cs Hv1) as Hn. fold (tok0 cfg) in Hn. destruct (add cfg (tok0 cfg) cs); [easy| |].
    + destruct (fill cfg (plus_tok (tok0 cfg) cs) st) as [[bf' ps'] r']. inversion E; subst. now left.
    + inversion E; subst. now left.
Qed.
Lemma group_nonempty (bf ps : list (@piece A)) : bf <> [] \/ ps <> [] -> group bf ps <> [].
Proof. unfold group. destruct bf, ps; cbn; try easy. now intros [|]. Qed.

Lemma packsv_exists st : Forall (fun v : vel => vok cfg (snd v)) st -> exists rows, packsv st rows.
Proof.
  remember (msize st) as n eqn:En. revert st En. induction n as [n IH] using (well_founded_induction lt_wf). intros st -> Hv.
  destruct st as [|v st]; [exists []; apply pv_nil|]. set (st0 := v :: st) in *.
  destruct (fill cfg (tok0 cfg) st0) as [[bf ps] r] eqn:E.
  pose proof (fill_nonempty st0 bf ps r ltac:(easy) Hv E) as Hne.
  destruct (fill_smaller _ _ _ _ _ Hv (tok_ok0 cfg) E) as [_ Hs]. specialize (Hs Hne).
  destruct (fill_rows cfg _ _ _ _ _ Hv (tok_ok0 cfg) E) as (Hr & _).
  destruct r as [|w r].
  - eexists. eapply pv_last; [easy|exact E].
  - destruct (IH _ Hs (w :: r) eq_refl Hr) as [rows Hp]. eexists. eapply pv_more; [easy|exact E|easy|exact Hp].
Qed.

Lemma packsv_rows_ok st rows : packsv st rows -> Forall (fun v : vel => vok cfg (snd v)) st -> Forall (fun row => row <> [] /\ row_ok cfg row) rows.
Proof.
  assert (Hg : forall st bf ps r, Forall (fun v : vel => vok cfg (snd v)) st -> fill cfg (tok0 cfg) st = (bf, ps, r) ->
    Forall (fun row => row <> [] /\ row_ok cfg row) (group bf ps) /\ Forall (fun v : vel => vok cfg (snd v)) r).
  { intros st0 bf ps r Hv E. destruct (fill_rows cfg _ _ _ _ _ Hv (tok_ok0 cfg) E) as (Hr & H1 & H2 & H3). split; [|easy].
    unfold group. apply Forall_app. split.
    - destruct bf as [|q bf]; [constructor|]. constructor; [|constructor]. split; [easy|]. apply vok_row_ok; [easy|].
      intros i f Hi. specialize (H3 i f Hi). rewrite tok0_nth in H3. exact H3.
    - apply Forall_forall. intros row Hin. apply in_map_iff in Hin as (q & <- & Hq). split; [easy|]. rewrite Forall_forall in H2.
      apply pass_row_ok; now apply H2. }
  intros H. induction H as [|st bf ps Hne E|st bf ps r rows Hne E Hr H IH]; intros Hv; [constructor| |].
  - destruct fin; [|constructor]. now apply (Hg st bf ps []).
  - destruct (Hg st bf ps r Hv E) as [H1 H2]. apply Forall_app. split; [easy|]. now apply IH.
Qed.
End Packs.

Section Law.
Context {A : Type}.
Variable cfg : config A.
Notation fs0 := (cs_feats cfg).
Hypothesis Hcfg : good_config cfg.
Variable p : Iter (list (value A)).
Variable l : list (list (value A)).
Variables fin used json : bool.
Variable N0 : nat.
Variable prep : ist p -> nat -> Prop.
Variable pcrep : ick p -> nat -> Prop.
Hypothesis L : Law p l fin used json N0 prep pcrep.
Hypothesis Hgood : Forall (good_element cfg) l.

Definition from (Q : nat) : list (@vel A) := number Q (skipn Q l).
Lemma from_cons Q e : nth_error l Q = Some e -> from Q = (Q, true, values_of e) :: from (S Q).
Proof. intros H. unfold from. now rewrite (skipn_nth_cons _ _ _ H). Qed.
Lemma from_end Q : (length l <= Q)%nat -> from Q = [].
Proof. intros H. unfold from. now rewrite skipn_all2. Qed.

Lemma good_facts e : good_element cfg e -> vok cfg (values_of e) /\ (one_data_feature cfg \/ arrays fs0 e) /\ den true fs0 e (empty_slices cfg) (values_of e) /\ length e = length fs0.
Proof.
  intros (G1 & G2 & G3 & G4). assert (Gl : length fs0 = length (values_of e)) by (unfold values_of; rewrite map_length; lia).
  assert (Hms : meta_small fs0 (values_of e)).
  { apply (Forall2_intro _ _ _ [] Gl). intros i f Hi Hm. specialize (G2 i ltac:(now exists f)). unfold limit in G2. now rewrite Hi in G2. }
  repeat split; try easy.
  - destruct G3 as [G3|G3]; [now left|right]. apply (Forall2_intro _ _ _ [] Gl). intros i f Hi.
    destruct (cf_meta f) eqn:Hm; [exact (Forall2_nth _ _ _ _ _ [] Hms Hi Hm)|].
    destruct (G3 i ltac:(now exists f)) as [H _]. unfold limit in H. now rewrite Hi in H.
  - destruct G4 as [G4|[G4 G5]]; [now left|right]. split; [easy|]. apply (Forall2_intro _ _ _ [] Gl). intros i f Hi Hm. apply G5. now exists f.
  - destruct G3 as [G3|G3]; [now left|right]. apply (Forall2_intro _ _ _ (Array []) (eq_sym G1)). intros i f Hi.
    destruct (cf_meta f) eqn:Hm; [now left|right]. destruct (G3 i ltac:(now exists f)) as [_ [x Hx]]. exists x. now apply nth_error_nth.
  - unfold empty_slices, values_of. clear -G1. revert e G1. induction fs0 as [|f fs IH]; intros [|v e] G1; cbn in *; try discriminate; [constructor|].
    destruct (cf_meta f) eqn:Hm; [apply den_meta|apply den_fresh]; try easy; apply IH; lia.
Qed.

Lemma good_nth Q e : nth_error l Q = Some e -> good_element cfg e.
Proof. intros H. rewrite Forall_forall in Hgood. apply Hgood. now apply nth_error_In in H. Qed.

Lemma from_vok Q : Forall (fun v : vel => vok cfg (snd v)) (from Q).
Proof.
  unfold from. assert (H : Forall (good_element cfg) (skipn Q l)) by now apply Forall_skipn. revert H. generalize Q at 2 as k. generalize (skipn Q l) as m.
  induction m as [|e m IH]; intros k H; cbn; constructor; inversion H; subst; [now apply good_facts|now apply IH].
Qed.

(** The element [e] read at position [i], with the contents [cs]. *)
Definition rem_ok (e : cts_element A (ick p)) (i : nat) (b : bool) (cs : list (list A)) : Prop :=
  nth_error l i = Some (el_feats e) /\ pcrep (el_state e) i /\ den b fs0 (el_feats e) (el_slices e) cs /\ vok cfg cs /\
  (if b then passb cfg cs = false else existsb (fun f => negb (cf_meta f)) fs0 = true).
(** What is still to be packed. *)
Definition holds (ps : ist p) (rem : option (cts_element A (ick p))) (stop : bool) (st : list vel) : Prop :=
  exists Q, prep ps Q /\
  match rem, stop with
  | None, false => st = from Q
  | None, true => fin = true /\ Q = length l /\ st = []
  | Some e, false => exists i b cs, Q = S i /\ rem_ok e i b cs /\ st = (i, b, cs) :: from Q
  | Some _, true => False
  end.
Definition ck_holds (c : ick p) (slices : list (option slice)) (st : list vel) : Prop :=
  exists i, pcrep c i /\
  ((slices = empty_slices cfg /\ st = from i /\ (i <= length l)%nat) \/
   exists vs cs, rem_ok (mkEl c vs slices) i false cs /\ st = (i, false, cs) :: from (S i)).

Lemma holds_vok ps rem stop st : holds ps rem stop st -> Forall (fun v : vel => vok cfg (snd v)) st.
Proof.
  intros (Q & _ & H). destruct rem as [e|], stop; try easy.
  - destruct H as (i & b & cs & _ & (_ & _ & _ & Hv & _) & ->). constructor; [easy|apply from_vok].
  - destruct H as (_ & _ & ->). constructor.
  - subst. apply from_vok.
Qed.

Lemma fresh_den fs vs ss cs : den true fs vs ss cs -> ss = map (fun f => if cf_meta f then None else Some EmptySlice) fs /\ cs = @values_of A vs.
Proof.
  intros H. induction H as [|f fs v vs ss cs Hm H IH|f fs v vs ss cs Hm Hb H IH|f fs x vs ss cs a Hm Hb Ha H IH]; [easy| | |congruence];
    destruct IH as [-> ->]; cbn; now rewrite Hm.
Qed.

Lemma ck_holds_checkpoint ps rem st : holds ps rem false st -> exists c slices, checkpoint cfg p ps rem = (c, slices, 0%nat) /\ ck_holds c slices st.
Proof.
  intros (Q & Hp & H). destruct rem as [e|].
  - destruct H as (i & b & cs & -> & Hr & ->). exists (el_state e), (el_slices e). split; [easy|]. exists i. pose proof Hr as (H1 & H2 & H3 & H4 & H5).
    split; [exact H2|]. destruct b.
    + left. destruct (fresh_den _ _ _ _ H3) as [E1 ->]. split; [exact E1|]. split; [symmetry; now apply from_cons|]. assert (i < length l)%nat by (apply nth_error_Some; congruence). lia.
    + right. exists (el_feats e), cs. split; [|easy]. destruct e. exact Hr.
  - subst. exists (get_state p ps), (empty_slices cfg). split; [easy|]. exists Q. split; [now apply (law_get L)|]. left. repeat split. now apply (law_le L ps).
Qed.

Lemma loop_after_rem fuel0 k (s : cts p) e buffer tok buf' tok' :
  ct_rem s = Some e -> maybe_add cfg e buffer tok = Ok (None, buf', tok') ->
  fill_loop cfg p fuel0 (S k) s buffer tok = fill_loop cfg p fuel0 (S k) (mkCts (ct_parent s) (ct_packed s) None (ct_stop s) (ct_state s)) buf' tok'.
Proof.
  intros E1 E2. cbn [fill_loop]. rewrite E1, E2. reflexivity.
Qed.

Lemma fill_loop_fresh fuel0 : (N0 <= fuel0)%nat -> forall m Q fuel (s : cts p) buffer tok bf ps r,
  prep (ct_parent s) Q -> (m = length l - Q)%nat -> ct_rem s = None -> ct_stop s = false -> tok_ok fs0 tok -> (m < fuel)%nat ->
  fill cfg tok (from Q) = (bf, ps, r) -> r <> [] \/ fin = true ->
  exists s' bs, fill_loop cfg p fuel0 fuel s buffer tok = inr (s', buffer ++ bs) /\ map el_contents bs = map snd bf /\
    ct_packed s' = ct_packed s ++ map (fun q => show_row cfg [q]) ps /\ ct_state s' = ct_state s /\
    holds (ct_parent s') (ct_rem s') (ct_stop s') r /\ (ct_stop s' = true <-> r = []).
Proof.
  intros Hf0. induction m as [|m IH]; intros Q [|fuel] s buffer tok bf ps r Hp Hm Hrem Hstop Ht Hfuel E Hr; try lia.
  - pose proof (law_le L _ _ Hp) as Hle. assert (Q = length l) as -> by lia.
    rewrite from_end in E by lia. inversion E; subst. destruct Hr as [Hr|Hr]; [easy|].
    destruct (law_stop L fuel0 _ Hf0 Hr Hp) as (ps' & En & Hp').
    cbn [fill_loop]. rewrite Hrem, En. eexists _, []. split; [rewrite app_nil_r; reflexivity|]. cbn. rewrite app_nil_r.
    repeat split; try easy. exists (length l). easy.
  - destruct (nth_error l Q) as [e|] eqn:Ee; [|apply nth_error_None in Ee; lia].
    destruct (law_next L fuel0 _ _ _ Hf0 Hp Ee) as (ps' & En & Hp').
    destruct (good_facts e (good_nth _ _ Ee)) as (Gv & Ga & Gd & Gl).
    rewrite (from_cons _ _ Ee) in E. cbn [fill andb] in E.
    cbn [fill_loop]. rewrite Hrem, En. rewrite (proj2 (Nat.eqb_eq _ _) Gl). cbn [negb].
    assert (Eopt : (negb (cs_split_full cfg) && can_optimize cfg (mkEl (get_state p (ct_parent s)) e (empty_slices cfg))) = passb cfg (values_of e)).
    { unfold passb, can_optimize. cbn [el_feats el_slices]. f_equal. now apply full_length_den. }
    rewrite Eopt.
    destruct (passb cfg (values_of e)) eqn:Epass.
    + destruct (fill cfg tok (from (S Q))) as [[bf' ps''] r'] eqn:E'. inversion E; subst. clear E.
      rewrite (pack_show cfg Hcfg _ [(Q, values_of e)]); [|cbn; f_equal; exact (den_contents _ _ _ _ _ Gd)|easy|apply pass_row_ok; easy].
      destruct (IH (S Q) fuel (mkCts ps' (ct_packed s ++ [show_row cfg [(Q, values_of e)]]) None (ct_stop s) (ct_state s)) buffer tok bf ps'' r) as (s' & bs & F1 & F2 & F3 & F4 & F5 & F6); try easy; try lia.
      exists s', bs. split; [exact F1|]. split; [easy|]. split; [|easy]. rewrite F3. cbn. rewrite <- app_assoc. easy.
    + pose proof (maybe_add_ok cfg Hcfg true e (empty_slices cfg) (values_of e) tok (get_state p (ct_parent s)) buffer Gd Gv Ht (fun _ => Ga) ltac:(discriminate)) as Hadd.
      destruct (add cfg tok (values_of e)) as [| |lc rc].
      * destruct Hadd as (tok' & ->). inversion E; subst. eexists _, []. split; [rewrite app_nil_r; reflexivity|]. cbn. rewrite app_nil_r. repeat split; try easy.
        -- exists (S Q). split; [easy|]. rewrite Hstop. exists Q, true, (values_of e). split; [easy|]. split; [|easy].
           repeat split; cbn; try easy; try apply Gv. now apply (law_get L).
        -- now rewrite Hstop.
      * destruct Hadd as [-> Ht']. destruct (fill cfg (plus_tok tok (values_of e)) (from (S Q))) as [[bf' ps''] r'] eqn:E'. inversion E; subst. clear E.
        destruct (IH (S Q) fuel (mkCts ps' (ct_packed s) None (ct_stop s) (ct_state s)) (buffer ++ [mkEl (get_state p (ct_parent s)) e (empty_slices cfg)])
                     (plus_tok tok (values_of e)) bf' ps r) as (s' & bs & F1 & F2 & F3 & F4 & F5 & F6); try easy; try lia.
        eexists s', (_ :: bs). split; [rewrite F1, <- app_assoc; reflexivity|]. split; [|easy].
        cbn [map]. rewrite F2. cbn [snd]. f_equal. exact (den_contents _ _ _ _ _ Gd).
      * destruct Hadd as (ls & rs & tok' & -> & Hc & Hd & V1 & V2 & _ & Hx). inversion E; subst. clear E.
        eexists _, [_]. split; [reflexivity|]. cbn [map ct_packed ct_state ct_parent ct_rem ct_stop]. rewrite app_nil_r. repeat split; try easy.
        -- exists (S Q). split; [easy|]. rewrite Hstop. exists Q, false, rc. split; [easy|]. split; [|easy].
           repeat split; cbn; try easy; try apply V2. now apply (law_get L).
        -- now rewrite Hstop.
Qed.

Lemma fill_loop_ok fuel0 fuel (s : cts p) st bf ps r :
  (N0 <= fuel0)%nat -> (length l < fuel)%nat -> holds (ct_parent s) (ct_rem s) (ct_stop s) st -> ct_stop s = false ->
  fill cfg (tok0 cfg) st = (bf, ps, r) -> r <> [] \/ fin = true ->
  exists s' bs, fill_loop cfg p fuel0 fuel s [] (tok0 cfg) = inr (s', bs) /\ map el_contents bs = map snd bf /\
    ct_packed s' = ct_packed s ++ map (fun q => show_row cfg [q]) ps /\ ct_state s' = ct_state s /\
    holds (ct_parent s') (ct_rem s') (ct_stop s') r /\ (ct_stop s' = true <-> r = []).
Proof.
  intros Hf0 Hfuel (Q & Hp & H) Hstop E Hr. rewrite Hstop in H. pose proof (law_le L _ _ Hp) as HQ.
  destruct (ct_rem s) as [e|] eqn:Erem.
  - destruct H as (i & b & cs & -> & Hrem & ->). pose proof Hrem as (R1 & R2 & R3 & R4 & R5).
    cbn [fill] in E. assert (Hbp : b && passb cfg cs = false) by (destruct b; [exact R5|easy]). rewrite Hbp in E.
    destruct e as [est evs ess]. cbn [el_feats el_slices el_state] in *.
    pose proof (good_facts evs (good_nth _ _ R1)) as (_ & Ga & _).
    assert (Hz : Forall (fun t => t = 0%nat) (tok0 cfg)) by (apply Forall_forall; intros x Hx; apply in_map_iff in Hx as (? & <- & _); easy).
    pose proof (maybe_add_ok cfg Hcfg b evs ess cs (tok0 cfg) est [] R3 R4 (tok_ok0 cfg) (fun _ => Ga) (fun _ => Hz)) as Hadd.
    pose proof (add_empty_row cfg Hcfg cs R4) as Hns. fold (tok0 cfg) in Hns.
    destruct (add cfg (tok0 cfg) cs) as [| |lc rc]; [easy| |].
    + destruct Hadd as [Ea Ht']. destruct (fill cfg (plus_tok (tok0 cfg) cs) (from (S i))) as [[bf' ps'] r'] eqn:E'. inversion E; subst. clear E.
      destruct fuel as [|fuel]; [lia|].
      rewrite (loop_after_rem fuel0 fuel s _ _ _ _ _ Erem Ea). cbn [app].
      destruct (fill_loop_fresh fuel0 Hf0 (length l - S i) (S i) (S fuel) (mkCts (ct_parent s) (ct_packed s) None (ct_stop s) (ct_state s))
                  [mkEl est evs ess] (plus_tok (tok0 cfg) cs) bf' ps r) as (s' & bs & F1 & F2 & F3 & F4 & F5 & F6); try easy; try lia.
      exists s', ([mkEl est evs ess] ++ bs). split; [exact F1|]. split; [|easy]. cbn [map app]. rewrite F2. cbn [snd]. f_equal. exact (den_contents _ _ _ _ _ R3).
    + destruct Hadd as (ls & rs & tok' & Ea & Hc & Hd & V1 & V2 & _ & Hx). inversion E; subst. clear E.
      destruct fuel as [|fuel]; [lia|]. cbn [fill_loop]. rewrite Erem, Ea.
      eexists _, [_]. split; [reflexivity|]. cbn [map ct_packed ct_state ct_parent ct_rem ct_stop]. rewrite app_nil_r. repeat split; try easy.
      * exists (S i). split; [easy|]. rewrite Hstop. exists i, false, rc. split; [easy|]. split; [|easy]. repeat split; cbn; try easy; apply V2.
      * now rewrite Hstop.
  - subst st. destruct (fill_loop_fresh fuel0 Hf0 (length l - Q) Q fuel s [] (tok0 cfg) bf ps r) as (s' & bs & F); try easy; try lia; [apply tok_ok0|].
    exists s', bs. exact F.
Qed.

Variable all : list (list (@piece A)).
Hypothesis Hall : packsv cfg fin (from 0) all.

Definition base (T : nat) (st : list vel) (rows : list (list piece)) : Prop :=
  packsv cfg fin st rows /\ skipn T all = rows /\ (T + length rows = length all)%nat /\ Forall (fun v : vel => vok cfg (snd v)) st.
Definition filled (s : cts p) (st : list vel) (k : nat) : Prop :=
  exists bf ps r, st <> [] /\ fill cfg (tok0 cfg) st = (bf, ps, r) /\ (r <> [] \/ fin = true) /\ (k <= length (group bf ps))%nat /\
    ct_packed s = map (show_row cfg) (skipn k (group bf ps)) /\ holds (ct_parent s) (ct_rem s) (ct_stop s) r /\ (ct_stop s = true <-> r = []).
Definition ready (s : cts p) (st : list vel) : Prop := ct_packed s = [] /\ ct_stop s = false /\ holds (ct_parent s) (ct_rem s) (ct_stop s) st.
Definition crep0 (c : ick p * list (option slice) * nat) (n : nat) : Prop :=
  exists T st rows k, base T st rows /\ snd c = k /\ ck_holds (fst (fst c)) (snd (fst c)) st /\ n = (T + k)%nat /\ (T + k <= length all)%nat.
Definition rep0 (s : cts p) (n : nat) : Prop :=
  (exists q, prep (ct_parent s) q) /\
  exists T st rows c slices k, base T st rows /\ ct_state s = (c, slices, k) /\ ck_holds c slices st /\ n = (T + k)%nat /\
    ((k = 0%nat /\ ready s st) \/ filled s st k \/
     (st = [] /\ k = 0%nat /\ ct_packed s = [] /\ ct_stop s = true)).

Lemma base_fill T st rows bf ps r : base T st rows -> st <> [] -> fill cfg (tok0 cfg) st = (bf, ps, r) -> r <> [] \/ fin = true ->
  exists rest, rows = group bf ps ++ rest /\ base (T + length (group bf ps)) r rest.
Proof.
  intros (Hp & Hs & Hl & Hv) Hne E Hr. destruct (fill_rows cfg _ _ _ _ _ Hv (tok_ok0 cfg) E) as (Hvr & _).
  assert (Hd : exists rest, rows = group bf ps ++ rest /\ packsv cfg fin r rest).
  { inversion Hp as [E0|st' bf' ps' Hne' E' E1 E2|st' bf' ps' r' rows' Hne' E' Hr' Hp' E1 E2]; subst; [easy| |].
    - rewrite E in E'. inversion E'; subst. destruct Hr as [Hr|Hr]; [easy|]. rewrite Hr. exists []. rewrite app_nil_r. split; [easy|]. apply pv_nil.
    - rewrite E in E'. inversion E'; subst. rewrite E2. eauto. }
  destruct Hd as (rest & -> & Hp'). exists rest. split; [easy|]. repeat split; try easy.
  - rewrite Nat.add_comm, <- skipn_skipn, Hs. rewrite skipn_app, skipn_all, Nat.sub_diag. easy.
  - rewrite app_length in Hl. lia.
Qed.

Lemma rep_le s n : rep0 s n -> (n <= length all)%nat.
Proof.
  intros (_ & T & st & rows & c & slices & k & Hb & _ & _ & -> & [(-> & _)|[(bf & ps & r & Hne & E & Hr & Hk & _)|(-> & -> & _)]]); pose proof Hb as (_ & _ & Hl & _); try lia.
  destruct (base_fill _ _ _ _ _ _ Hb Hne E Hr) as (rest & -> & _). rewrite app_length in Hl. lia.
Qed.

Definition N1 : nat := (N0 + length l + 2)%nat.

Lemma next_ready fuel s T st rows : (N1 <= fuel)%nat -> base T st rows -> ready s st ->
  match rows with
  | row :: _ => exists s', cts_next cfg p fuel s = (Yield (show_row cfg row), s') /\ rep0 s' (S T)
  | [] => fin = true -> exists s', cts_next cfg p fuel s = (Stop, s') /\ rep0 s' T
  end.
Proof.
  intros Hf Hb (Hpk & Hst & Hh). unfold N1 in Hf. pose proof Hb as (Hp & _ & Hl & Hv).
  destruct (fill cfg (tok0 cfg) st) as [[bf ps] r] eqn:E.
  assert (Hgo : r <> [] \/ fin = true -> exists s' bs, 
     fill_loop cfg p fuel fuel (mkCts (ct_parent s) (ct_packed s) (ct_rem s) (ct_stop s) (checkpoint cfg p (ct_parent s) (ct_rem s))) [] (tok0 cfg) = inr (s', bs) /\
     map el_contents bs = map snd bf /\ ct_packed s' = map (fun q => show_row cfg [q]) ps /\ ct_state s' = checkpoint cfg p (ct_parent s) (ct_rem s) /\
     holds (ct_parent s') (ct_rem s') (ct_stop s') r /\ (ct_stop s' = true <-> r = [])).
  { intros Hr. destruct (fill_loop_ok fuel fuel (mkCts (ct_parent s) (ct_packed s) (ct_rem s) (ct_stop s) (checkpoint cfg p (ct_parent s) (ct_rem s))) st bf ps r) as (s' & bs & F1 & F2 & F3 & F4);
      try easy; try lia. exists s', bs. cbn [ct_packed] in F3. rewrite Hpk in F3. auto. }
  assert (Hck : exists c slices, checkpoint cfg p (ct_parent s) (ct_rem s) = (c, slices, 0%nat) /\ ck_holds c slices st).
  { apply ck_holds_checkpoint. now rewrite <- Hst. }
  destruct Hck as (c & slices & Ec & Hck).
  unfold cts_next, pop. rewrite Hpk, Hst. fold (tok0 cfg). rewrite Hpk, Hst in Hgo.
  destruct st as [|v st].
  - cbn in E. inversion E; subst. assert (rows = []) as ->.
    { inversion Hp; subst; easy. }
    intros Hfin. destruct (Hgo (or_intror Hfin)) as (s' & bs & F1 & F2 & F3 & F4 & F5 & F6). cbn [ct_parent ct_packed ct_rem ct_stop ct_state]. rewrite F1.
    destruct bs as [|]; [|easy]. cbn [map] in F3. pose proof (proj2 F6 eq_refl) as Estop. rewrite Estop in F5. rewrite Estop.
    pose proof F5 as (Q & HQ & F5'). destruct (ct_rem s') as [|] eqn:Erem; [easy|]. cbn [ct_packed ct_parent ct_rem ct_stop ct_state].
    rewrite F3, Estop, Erem. eexists. split; [reflexivity|].
    split; [cbn; eauto|]. destruct F5' as (F7 & -> & _).
    exists T, [], [], (get_state p (ct_parent s')), (empty_slices cfg), 0%nat. split; [exact Hb|]. split; [easy|]. split.
    { exists (length l). split; [now apply (law_get L)|]. left. rewrite from_end by lia. easy. }
    split; [lia|]. right. right. repeat split; easy.
  - assert (Hne : v :: st <> []) by easy.
    assert (Hcase : (r <> [] \/ fin = true) \/ (r = [] /\ fin = false)) by (destruct r, fin; auto; left; now left).
    destruct Hcase as [Hr|[Er Efin]].
    2:{ assert (rows = []) as ->; [|congruence]. subst r. inversion Hp as [|? bf' ps' _ E' E1 E2|? bf' ps' r' rows' _ E' Hr' _]; subst; [now rewrite Efin|]. rewrite E in E'. now inversion E'; subst. }
    destruct (base_fill _ _ _ _ _ _ Hb Hne E Hr) as (rest & -> & _).
    pose proof (group_nonempty bf ps (fill_nonempty cfg Hcfg _ _ _ _ Hne Hv E)) as Hg.
    destruct (group bf ps) as [|row rows'] eqn:Eg; [easy|]. cbn [app].
    destruct (Hgo Hr) as (s' & bs & F1 & F2 & F3 & F4 & F5 & F6). cbn [ct_parent ct_packed ct_rem ct_stop ct_state]. rewrite F1.
    pose proof F5 as (Q & HQ & F5').
    assert (Hbuf : (match bs with [] => Ok s' | _ :: _ => let! r0 := pack_elements cfg bs in
       Ok (mkCts (ct_parent s') (r0 :: ct_packed s') (ct_rem s') (ct_stop s') (ct_state s')) end) =
       Ok (mkCts (ct_parent s') (map (show_row cfg) (group bf ps)) (ct_rem s') (ct_stop s') (ct_state s'))).
    { destruct (fill_rows cfg _ _ _ _ _ Hv (tok_ok0 cfg) E) as (_ & H1 & _ & H3).
      destruct bs as [|b0 bs]; destruct bf as [|q bf]; try discriminate.
      - unfold group. cbn [app]. rewrite map_map, <- F3. now destruct s'.
      - rewrite (pack_show cfg Hcfg _ (q :: bf)); [|easy|easy|].
        + cbn [bind]. unfold group. cbn [app map]. rewrite map_map, F3. reflexivity.
        + apply vok_row_ok; [easy|]. intros i f Hi. specialize (H3 i f Hi). rewrite tok0_nth in H3. exact H3. }
    rewrite Hbuf. rewrite Eg. cbn [map ct_parent ct_packed ct_rem ct_stop ct_state].
    assert (Hsr : ct_stop s' = true -> ct_rem s' = None) by (intros Hx; rewrite Hx in F5'; now destruct (ct_rem s')).
    assert (Hmid : forall X : cts p, (match ct_stop s' with true => match ct_rem s' with Some e => 
        let! r0 := pack_elements cfg [e] in Ok (mkCts (ct_parent s') ((show_row cfg row :: map (show_row cfg) rows') ++ [r0]) None true (ct_state s')) | None => Ok X end | false => Ok X end) = Ok X).
    { intros X. destruct (ct_stop s'); [|easy]. now rewrite Hsr. }
    rewrite Hmid. cbn [map ct_parent ct_packed ct_rem ct_stop ct_state]. rewrite F4, Ec. eexists. split; [reflexivity|].
    split; [cbn; eauto|]. exists T, (v :: st), (group bf ps ++ rest), c, slices, 1%nat. rewrite Eg.
    split; [exact Hb|]. split; [easy|]. split; [easy|]. split; [lia|]. right. left.
    exists bf, ps, r. split; [easy|]. split; [easy|]. split; [easy|]. rewrite Eg. cbn [length skipn ct_parent ct_packed ct_rem ct_stop]. split; [lia|]. easy.
Qed.

Lemma all_rows T st rows k : base T st rows -> nth_error (map (show_row cfg) all) (T + k) = nth_error (map (show_row cfg) rows) k.
Proof.
  intros (_ & Hs & _). rewrite !nth_error_map. f_equal. rewrite <- Hs. rewrite <- (firstn_skipn T all) at 1.
  destruct (Nat.le_gt_cases T (length all)) as [H|H].
  - rewrite nth_error_app2 by (rewrite firstn_length; lia). rewrite firstn_length. f_equal. lia.
  - rewrite skipn_all2 by lia. rewrite app_nil_r, firstn_all2 by lia. rewrite (proj2 (nth_error_None all (T + k))) by lia. now destruct k.
Qed.

Lemma rep_next fuel s n : (N1 <= fuel)%nat -> rep0 s n ->
  match nth_error (map (show_row cfg) all) n with
  | Some a => exists s', cts_next cfg p fuel s = (Yield a, s') /\ rep0 s' (S n)
  | None => fin = true -> exists s', cts_next cfg p fuel s = (Stop, s') /\ rep0 s' n
  end.
Proof.
  intros Hf ((q & Hq) & T & st & rows & c & slices & k & Hb & Es & Hck & -> & H).
  destruct H as [(-> & Hr)|[(bf & ps & r & Hne & E & Hr & Hk & Hpk & Hh & Hst)|(-> & -> & Hpk & Hst)]].
  - rewrite (all_rows T st rows 0 Hb). pose proof (next_ready fuel s T st rows Hf Hb Hr) as Hn. destruct rows; cbn [map nth_error]; rewrite ?Nat.add_0_r; exact Hn.
  - destruct (base_fill _ _ _ _ _ _ Hb Hne E Hr) as (rest & -> & Hb').
    rewrite (all_rows _ _ _ _ Hb). rewrite map_app.
    destruct (Nat.eq_dec k (length (group bf ps))) as [->|Hk'].
    + rewrite skipn_all in Hpk. cbn in Hpk. rewrite nth_error_app2 by (rewrite map_length; lia). rewrite map_length, Nat.sub_diag.
      destruct (ct_stop s) eqn:Estop.
      * rewrite (proj1 Hst eq_refl) in *. pose proof Hb' as (Hp' & _). assert (rest = []) as -> by (inversion Hp'; subst; easy). cbn [map nth_error].
        intros _. exists s. unfold cts_next, pop. rewrite Hpk, Estop. split; [easy|]. split; [eauto|].
        exists T, st, (group bf ps ++ []), c, slices, (length (group bf ps)). split; [exact Hb|]. split; [easy|]. split; [easy|]. split; [easy|].
        right. left. exists bf, ps, []. rewrite skipn_all, Estop. split; [easy|]. split; [easy|]. split; [easy|]. split; [lia|]. easy.
      * pose proof (next_ready fuel s _ r rest Hf Hb') as Hn. unfold ready in Hn. rewrite Estop in Hn.
        specialize (Hn (conj Hpk (conj eq_refl Hh))). destruct rest; cbn [map nth_error]; exact Hn.
    + rewrite nth_error_app1 by (rewrite map_length; lia).
      destruct (nth_error (group bf ps) k) as [row|] eqn:Erow; [|apply nth_error_None in Erow; lia].
      rewrite nth_error_map, Erow. cbn [option_map].
      rewrite (skipn_nth_cons _ _ _ Erow) in Hpk. cbn [map] in Hpk.
      unfold cts_next, pop. rewrite Hpk, Es. eexists. split; [reflexivity|]. split; [cbn; eauto|].
      exists T, st, (group bf ps ++ rest), c, slices, (S k). split; [exact Hb|]. split; [easy|]. split; [easy|]. split; [lia|].
      right. left. exists bf, ps, r. cbn [ct_parent ct_packed ct_rem ct_stop]. split; [easy|]. split; [easy|]. split; [easy|]. split; [lia|]. easy.
  - rewrite (all_rows T [] rows 0 Hb). pose proof Hb as (Hp & _). assert (rows = []) as -> by (inversion Hp; subst; easy). cbn [map nth_error].
    intros _. exists s. unfold cts_next, pop. rewrite Hpk, Hst. split; [easy|]. split; [eauto|].
    exists T, [], [], c, slices, 0%nat. split; [exact Hb|]. split; [easy|]. split; [easy|]. split; [easy|]. right. right. easy.
Qed.

Lemma advance_ok fuel k s n : (N1 <= fuel)%nat -> rep0 s n -> (n + k <= length all)%nat -> exists s', advance cfg p fuel k s = Ok s' /\ rep0 s' (n + k).
Proof.
  intros Hf. revert s n. induction k as [|k IH]; intros s n Hr Hle.
  - exists s. rewrite Nat.add_0_r. easy.
  - pose proof (rep_next fuel s n Hf Hr) as Hn. destruct (nth_error (map (show_row cfg) all) n) as [a|] eqn:E.
    + destruct Hn as (s' & E' & Hr'). cbn [advance]. rewrite E'. destruct (IH s' (S n) Hr' ltac:(lia)) as (s'' & E'' & Hr''). exists s''. split; [easy|].
      now replace (n + S k)%nat with (S n + k)%nat by lia.
    + apply nth_error_None in E. rewrite map_length in E. lia.
Qed.

Lemma has_remainder_empty : has_remainder (empty_slices cfg) = false.
Proof. unfold empty_slices. induction fs0 as [|f fs IH]; cbn; [easy|]. now destruct (cf_meta f). Qed.
Lemma has_remainder_den fs vs ss (cs : list (list A)) : den false fs vs ss cs -> existsb (fun f => negb (cf_meta f)) fs = true -> has_remainder ss = true.
Proof.
  induction 1 as [|f fs v vs ss cs Hm H IH|f fs v vs ss cs Hm Hb H IH|f fs x vs ss cs a Hm Hb Ha H IH]; cbn; try easy.
  rewrite Hm. cbn. exact IH.
Qed.

Lemma restore_at fuel (s : cts p) c slices k T st rows i : (N1 <= fuel)%nat -> base T st rows -> pcrep c i ->
  ((slices = empty_slices cfg /\ st = from i /\ (i <= length l)%nat) \/
   exists vs cs, rem_ok (mkEl c vs slices) i false cs /\ st = (i, false, cs) :: from (S i)) ->
  (T + k <= length all)%nat -> live (map (show_row cfg) all) fin (T + k) ->
  (live l fin i -> exists ps, set_state p fuel (ct_parent s) c = Ok ps /\ prep ps i) ->
  exists s', cts_set_state cfg p fuel s (c, slices, k) = Ok s' /\ rep0 s' (T + k).
Proof.
  intros Hf Hb Hc Hck Hle Hlive Hset.
  assert (Hli : live l fin i).
  { destruct Hck as [(-> & -> & Hi)|(vs & cs & (Hn & _) & _)].
    - destruct (Nat.eq_dec i (length l)) as [->|]; [|left; lia]. right. split; [easy|]. rewrite from_end in Hb by lia.
      destruct Hb as (Hp & _ & Hl & _). assert (rows = []) as -> by (inversion Hp; subst; easy). cbn in Hl.
      destruct Hlive as [H|[_ H]]; [|easy]. rewrite map_length in H. lia.
    - left. apply nth_error_Some. congruence. }
  destruct (Hset Hli) as (ps & Eset & Hps). unfold cts_set_state. rewrite Eset. cbn [bind]. unfold N1 in *.
  destruct Hck as [(-> & -> & Hi)|(vs & cs & Hrem & ->)].
  - rewrite has_remainder_empty. cbn [bind]. apply advance_ok; [easy| |lia].
    split; [cbn; eauto|]. exists T, (from i), rows, (get_state p ps), (empty_slices cfg), 0%nat. split; [exact Hb|]. split; [easy|]. split.
    { exists i. split; [now apply (law_get L)|]. now left. }
    split; [lia|]. left. split; [easy|]. repeat split; try easy. cbn. now exists i.
  - pose proof Hrem as (Hn & _ & Hd & Hv & Hx). cbn [el_feats el_slices] in *. rewrite (has_remainder_den _ _ _ _ Hd Hx).
    destruct (law_next L fuel ps i vs ltac:(lia) Hps Hn) as (ps' & En & Hps'). rewrite En. cbn [bind]. apply advance_ok; [easy| |lia].
    split; [cbn; eauto|]. exists T, ((i, false, cs) :: from (S i)), rows, c, slices, 0%nat. split; [exact Hb|]. split; [easy|]. split.
    { exists i. split; [easy|]. right. exists vs, cs. easy. }
    split; [lia|]. left. split; [easy|]. repeat split; try easy. cbn. exists (S i). split; [easy|]. exists i, false, cs. easy.
Qed.

Lemma restore_ok fuel (s : cts p) c n : (N1 <= fuel)%nat -> crep0 c n -> live (map (show_row cfg) all) fin n ->
  (forall c' i, pcrep c' i -> live l fin i -> exists ps, set_state p fuel (ct_parent s) c' = Ok ps /\ prep ps i) ->
  exists s', cts_set_state cfg p fuel s c = Ok s' /\ rep0 s' n.
Proof.
  intros Hf (T & st & rows & k & Hb & Ek & (i & Hc & Hck) & -> & Hle) Hlive Hset. destruct c as [[c slices] k']. cbn [fst snd] in *. subst k'.
  apply (restore_at fuel s c slices k T st rows i); auto.
Qed.

Lemma concat_split_law : Law (concat_split cfg p) (map (show_row cfg) all) fin used false N1 rep0 crep0.
Proof.
  assert (Hbase : base 0 (from 0) all) by (repeat split; [exact Hall|apply from_vok]).
  split.
  - split; [exists 0%nat; apply (law_init L)|]. exists 0%nat, (from 0), all, (get_state p (init p)), (empty_slices cfg), 0%nat.
    split; [exact Hbase|]. split; [easy|]. split; [|split; [easy|]].
    + exists 0%nat. split; [apply (law_get L), (law_init L)|]. left. repeat split. lia.
    + left. split; [easy|]. repeat split; try easy. cbn. exists 0%nat. split; [apply (law_init L)|easy].
  - intros s n H. rewrite map_length. now apply rep_le in H.
  - intros fuel s n a Hf Hr Ha. pose proof (rep_next fuel s n Hf Hr) as H. now rewrite Ha in H.
  - intros fuel s Hf Hfin Hr. pose proof (rep_next fuel s _ Hf Hr) as H. rewrite (proj2 (nth_error_None _ _)) in H by lia. now apply H.
  - intros s n Hr. pose proof (rep_le s n Hr) as Hle. destruct Hr as (_ & T & st & rows & c & slices & k & Hb & Es & Hck & -> & _).
    exists T, st, rows, k. cbn [get_state concat_split]. rewrite Es. easy.
  - discriminate.
  - intros fuel s n Hf Hr Hl. destruct Hr as ((q & Hq) & _).
    apply (restore_at fuel s (get_state p (init p)) (empty_slices cfg) 0 0 (from 0) all 0); try easy.
    + apply (law_get L), (law_init L).
    + left. repeat split. lia.
    + cbn. lia.
    + intros Hli. apply (law_start L fuel (ct_parent s) q); try easy. unfold N1 in Hf. lia.
  - intros fuel c n Hf Hc Hl. apply (restore_ok fuel); try easy. intros c' i Hc' Hli. apply (law_fresh L); try easy. unfold N1 in Hf. lia.
  - intros fuel s q c n Hf Hu ((Q & HQ) & _) Hc Hl. apply (restore_ok fuel); try easy. intros c' i Hc' Hli. apply (law_used L fuel (ct_parent s) Q); try easy. unfold N1 in Hf. lia.
Qed.
End Law.
