(** The legacy packing operation makes the batches of first fit. *)
From Coq Require Import Permutation.
From Verif Require Import Base ListFacts MapDatasets Iter Packing PackingSpec Packing_proofs Samplers DataLoader PackOperation.

Section Op.
Context {A : Type}.
Notation record := (element A metadata).
Variable fs : list (feature A).
Variable size : nat.
Variable max_seq : option nat.
Hypothesis Hfs : fs <> [].
Hypothesis Halign : forall f, In f fs -> alignment f = 1%nat.
Hypothesis Hsize : (1 <= size)%nat.
Hypothesis Hmax : match max_seq with Some m => (1 <= m)%nat | None => True end.
Notation lengths := (map capacity fs).
Notation zeros := (map padding fs).
Notation place := (first_fit_place (M := metadata) fs max_seq).
Notation opc := (pack_operation size lengths zeros max_seq).
Notation new := (new_batch size lengths zeros).
Notation key e := (remove_record_key (snd e)).

Lemma ones : map (fun _ => 1%nat) lengths = map alignment fs.
Proof. rewrite map_map. apply map_ext_in. intros f Hf. now rewrite Halign. Qed.
Lemma positive : forall f, In f fs -> (0 < alignment f)%nat.
Proof. intros f Hf. rewrite Halign; [lia|easy]. Qed.
Lemma strat : strategy (M := metadata) fs (first_fit lengths (map alignment fs) max_seq) place.
Proof. exact (first_fit_strategy (M := metadata) fs max_seq positive Hfs Hmax). Qed.

Lemma forallb_const {X} (P : X -> bool) c (l : list X) : l <> [] -> forallb (fun x => x) (map (fun x => P x && c) l) = c && forallb P l.
Proof.
  intros H. destruct c; cbn [andb].
  - induction l as [|x [|y l] IH]; [easy|cbn; now rewrite andb_true_r|]. cbn [map forallb] in *. rewrite IH by easy. now rewrite andb_true_r.
  - destruct l; [easy|]. cbn. now rewrite andb_false_r.
Qed.
Lemma buffers_length i gs (es : list record) : length (buffers i gs es) = length gs.
Proof. revert i. induction gs as [|g gs IH]; intros i; [easy|]. cbn. now rewrite IH. Qed.
Lemma row_is_free_fit e r : length (fst e) = length fs ->
  row_is_free lengths max_seq e (row_of fs r) = forallb (fun x => x) (features_fit lengths max_seq e (row_of fs r)).
Proof.
  intros Hl. unfold row_is_free, features_fit.
  set (c := match max_seq with None => true | Some m => Nat.ltb (r_n (row_of fs r)) m end).
  set (L := combine (combine (fst e) lengths) (r_feats (row_of fs r))).
  assert (HL : L <> []).
  { intros E. apply (f_equal (@length _)) in E. unfold L in E. rewrite !combine_length, map_length in E. unfold row_of in E. cbn [r_feats] in E.
    rewrite buffers_length in E. destruct fs; [easy|]. cbn [length] in *. lia. }
  rewrite <- (forallb_const _ c L HL). f_equal. apply map_ext. now intros [[v k] f].
Qed.

(** One record. *)
Lemma try_add_spec (rs : list (list record)) m e : rs <> [] -> fits_alone fs e ->
  (exists i r, place rs e i /\ nth_error rs i = Some r /\
     try_add lengths max_seq e (map (row_of fs) rs, m) = Ok (Some (map (row_of fs) (update_nth i (r ++ [e]) rs), Some (key e)))) \/
  ((forall i, ~ place rs e i) /\ try_add lengths max_seq e (map (row_of fs) rs, m) = Ok None).
Proof.
  intros Hne Hf. pose proof (proj1 Hf) as Hl.
  pose proof (so_step _ _ _ strat rs e Hne Hf) as H. unfold try_add, can_add_at_row. cbn [fst].
  unfold first_fit in H. destruct (same_structure lengths e); cbn [negb] in *; [|exfalso; destruct H as [(i & r & _ & _ & H)|[_ H]]; easy].
  destruct (too_long lengths e); [exfalso; destruct H as [(i & r & _ & _ & H)|[_ H]]; easy|].
  rewrite (map_map (row_of fs) (fun r => forallb (fun x => x) (features_fit lengths max_seq e r))) in H. cbn [bind].
  replace (map (row_is_free lengths max_seq e) (map (row_of fs) rs)) with (map (fun r => forallb (fun x => x) (features_fit lengths max_seq e (row_of fs r))) rs)
    by (rewrite map_map; apply map_ext; intros r; symmetry; now apply row_is_free_fit).
  rewrite ones. destruct (first_true _) as [i|].
  - destruct H as [(i' & r & H1 & H2 & H3)|[_ H]].
    + left. exists i', r. split; [easy|]. split; [easy|]. destruct (add_to_batch _ e i _) as [b'| |]; try discriminate. cbn in *. congruence.
    + destruct (add_to_batch _ e i _); discriminate.
  - destruct H as [(i' & r & H1 & H2 & H3)|[H _]]; [|now right]. destruct (existsb _ _); discriminate.
Qed.

Definition shown (b : list (list record)) : list (list (list A * list Z * list Z)) := map (fun r => fst (show fs r)) b.
Lemma packed b m : get_packed_batch (map (row_of fs) b, Some m) = Ok (shown b, m).
Proof. unfold get_packed_batch, shown. cbn [fst snd]. rewrite map_map. do 2 f_equal. apply map_ext. intros r. now rewrite emit_row_of. Qed.
Lemma new_rows : new = (map (row_of fs) (List.repeat [] size), None).
Proof. unfold new_batch. now rewrite batch_nil. Qed.
Lemma some_rows : List.repeat (@nil record) size <> [].
Proof. destruct size; [lia|easy]. Qed.

Lemma new_place e : fits_alone fs e -> exists i, place (List.repeat [] size) e i.
Proof. intros He. apply (so_empty _ _ _ strat) with (i := 0%nat); [exact He|]. destruct size; [lia|easy]. Qed.

Lemma fresh_none l : opc (Some new) l = opc None l \/ l = [].
Proof. destruct l; [now right|now left]. Qed.

Lemma fills_run rs l b rest : fills place rs l b rest -> forall m, rs <> [] -> Forall (fits_alone fs) l ->
  exists c, l = c ++ rest /\
  let m' := last (map (fun e => key e) c) m in
  opc (Some (map (row_of fs) rs, Some m)) l =
  match rest with
  | [] => ([(shown b, m')], Ok tt, Some (map (row_of fs) b, Some m'))
  | _ => let '(os, r, cur) := opc None rest in ((shown b, m') :: os, r, cur)
  end.
Proof.
  induction 1 as [rs|rs e l i r b rest Hp Hr H IH|rs e l Hn]; intros m Hne Hf.
  - exists []. split; [easy|]. cbn [map last pack_operation]. now rewrite packed.
  - inversion Hf as [|? ? He Hf']; subst.
    destruct (try_add_spec rs (Some m) e Hne He) as [(i' & r' & Hp' & Hr' & E)|[Hn _]]; [|now apply Hn in Hp].
    assert (i' = i) as -> by (eapply (so_det _ _ _ strat); eassumption). rewrite Hr in Hr'. injection Hr' as <-.
    assert (Hne' : update_nth i (r ++ [e]) rs <> []).
    { intros E0. apply (f_equal (@length _)) in E0. rewrite update_nth_length in E0. now destruct rs. }
    destruct (IH (key e) Hne' Hf') as (c & -> & Ec). exists (e :: c). split; [easy|]. cbn zeta in *.
    replace (last (map (fun e => key e) (e :: c)) m) with (last (map (fun e => key e) c) (key e)).
    2:{ cbn [map]. destruct c as [|x c]; [easy|]. cbn [map]. generalize (key x), (map (fun e => key e) c). intros y ys. revert y.
        induction ys as [|z ys IHy]; intros y; [easy|]. exact (IHy z). }
    rewrite <- Ec. cbn [app pack_operation]. now rewrite E.
  - exists []. split; [easy|]. cbn [map last pack_operation]. inversion Hf as [|? ? He Hf']; subst.
    destruct (try_add_spec rs (Some m) e Hne He) as [(i' & r' & Hp' & _)|[_ E]]; [now apply Hn in Hp'|]. rewrite E, packed.
    rewrite new_rows.
    destruct (try_add_spec (List.repeat [] size) None e some_rows He) as [(i' & r' & _ & _ & E')|[Hn' _]]; [now rewrite E'|].
    destruct (new_place e He) as (j & Hj). now apply Hn' in Hj.
Qed.

(** Starting without a batch. *)
Lemma fills_start l b rest : fills place (List.repeat [] size) l b rest -> l <> [] -> Forall (fits_alone fs) l ->
  exists c e, l = (c ++ [e]) ++ rest /\
  opc None l =
  match rest with
  | [] => ([(shown b, key e)], Ok tt, Some (map (row_of fs) b, Some (key e)))
  | _ => let '(os, r, cur) := opc None rest in ((shown b, key e) :: os, r, cur)
  end.
Proof.
  intros H Hl Hf. inversion H as [| rs e l' i r b' rest' Hp Hr H' |rs e l' Hn]; subst; [easy| |].
  - inversion Hf as [|? ? He Hf']; subst.
    destruct (try_add_spec (List.repeat [] size) None e some_rows He) as [(i' & r' & Hp' & Hr' & E)|[Hn _]]; [|now apply Hn in Hp].
    assert (i' = i) as -> by (eapply (so_det _ _ _ strat); eassumption). rewrite Hr in Hr'. injection Hr' as <-.
    destruct (fills_run _ _ _ _ H' (key e)) as (c & -> & Ec); [|exact Hf'|].
    { intros E0. apply (f_equal (@length _)) in E0. rewrite update_nth_length, repeat_length in E0. cbn in E0. lia. }
    cbn [pack_operation]. rewrite new_rows, E.
    destruct c as [|x c] using rev_ind.
    + exists [], e. split; [easy|]. exact Ec.
    + exists (e :: c), x. split; [cbn; now rewrite <- app_assoc|]. clear IHc. cbn zeta in Ec. rewrite map_app in Ec. cbn [map] in Ec. rewrite last_last in Ec. exact Ec.
  - destruct (new_place e) as (j & Hj); [now inversion Hf|]. now apply Hn in Hj.
Qed.

Definition described (c : list record) (m : metadata) : Prop :=
  exists c' e, c = c' ++ [e] /\ md_index m = md_index (snd e) /\ md_record_key m = None /\ md_rng m = md_rng (snd e).
Lemma fills_chunk (rs : list (list record)) l b rest : fills place rs l b rest -> forall got,
  Permutation (concat rs) got -> Forall (fun r => sub r got) rs -> forall c, l = c ++ rest ->
  length b = length rs /\ Permutation (concat b) (got ++ c) /\ Forall (fun r => sub r (got ++ c)) b.
Proof.
  assert (A1 : forall X (s l : list X) x, sub s l -> sub (s ++ [x]) (l ++ [x])).
  { intros X s l0 x. induction 1; cbn; [apply sub_take, sub_nil|apply sub_skip|apply sub_take]; assumption. }
  assert (A2 : forall X (s l : list X) x, sub s l -> sub s (l ++ [x])).
  { intros X s l0 x. induction 1; cbn; [apply sub_skip, sub_nil|apply sub_skip|apply sub_take]; assumption. }
  assert (A3 : forall X (rs : list (list X)) i r e, nth_error rs i = Some r -> Permutation (concat (update_nth i (r ++ [e]) rs)) (concat rs ++ [e])).
  { intros X rs0. induction rs0 as [|x rs0 IH]; intros [|i] r e H; try easy; cbn in *.
    - injection H as ->. rewrite <- !app_assoc. apply Permutation_app_head, Permutation_app_comm.
    - rewrite <- app_assoc. apply Permutation_app_head. now apply IH. }
  induction 1 as [rs|rs e l i r b rest Hp Hr H IH|rs e l Hn]; intros got Hc Hs c Ec.
  - rewrite app_nil_r in Ec. subst c. rewrite app_nil_r. auto.
  - destruct (fills_suffix _ _ _ _ _ H) as (n & En).
    assert (exists c', c = e :: c' /\ l = c' ++ rest) as (c' & -> & Ec').
    { destruct c as [|x c]; [|injection Ec as <- Ec; eauto]. exfalso. cbn in Ec. apply (f_equal (@length _)) in Ec. subst rest.
      cbn in Ec. rewrite skipn_length in Ec. lia. }
    destruct (IH (got ++ [e])) with (c := c') as (I1 & I2 & I3); [now rewrite (A3 _ _ _ _ _ Hr), Hc| |exact Ec'|].
    + apply Forall_update_nth; [eapply Forall_impl; [|exact Hs]; intros; now apply A2|]. apply A1. rewrite Forall_forall in Hs. apply Hs. eapply nth_error_In; exact Hr.
    + rewrite update_nth_length in I1. rewrite <- app_assoc in I2, I3. auto.
  - assert (c = []) as ->; [|rewrite app_nil_r; auto]. destruct c as [|x c]; [easy|]. apply (f_equal (@length _)) in Ec. rewrite app_length in Ec. cbn in Ec. lia.
Qed.

Lemma operation_batches l bs : packs place size l bs -> l <> [] -> Forall (fits_alone fs) l ->
  exists cs outs cur, concat cs = l /\
    Forall2 (fun c b => length b = size /\ Permutation (concat b) c /\ Forall (fun r => sub r c) b) cs bs /\
    Forall2 (fun cb out => fst out = shown (snd cb) /\ described (fst cb) (snd out)) (combine cs bs) outs /\
    forall k, (k < length cs)%nat -> opc None (concat (skipn k cs)) = (skipn k outs, Ok tt, cur).
Proof.
  induction 1 as [|l b rest bs Hl H Hp IH]; intros Hne Hf; [easy|].
  destruct (fills_start l b rest H Hne Hf) as (c & e & El & E).
  assert (Hrest : Forall (fits_alone fs) rest) by (subst l; now apply Forall_app in Hf).
  assert (Hb : length b = size /\ Permutation (concat b) (c ++ [e]) /\ Forall (fun r => sub r (c ++ [e])) b).
  { destruct (fills_chunk _ _ _ _ H [] ltac:(clear; induction size; cbn; auto)) with (c := c ++ [e]) as (I1 & I2 & I3); [|exact El|].
    - apply Forall_forall. intros r Hr. apply repeat_spec in Hr as ->. constructor.
    - rewrite repeat_length in I1. auto. }
  assert (Hd : described (c ++ [e]) (key e)) by (exists c, e; now repeat split).
  destruct rest as [|x rest].
  - inversion Hp; subst; [|easy]. exists [c ++ [e]], [(shown b, key e)]. eexists. split; [easy|].
    split; [constructor; [exact Hb|constructor]|]. split; [constructor; [now split|constructor]|].
    intros [|k] Hk; [|cbn in Hk; lia]. cbn [skipn concat]. exact E.
  - destruct (IH ltac:(easy) Hrest) as (cs & outs & cur & Ec & F1 & F2 & F3).
    exists ((c ++ [e]) :: cs), ((shown b, key e) :: outs), cur. split; [cbn; rewrite Ec; now subst l|].
    split; [constructor; [exact Hb|exact F1]|]. split; [constructor; [now split|exact F2]|].
    intros [|k] Hk; cbn [skipn concat].
    + rewrite Ec, <- El, E. rewrite <- Ec. specialize (F3 0%nat). cbn [skipn] in F3. rewrite F3; [easy|]. destruct cs; [discriminate|cbn; lia].
    + apply F3. cbn in Hk. lia.
Qed.
End Op.
