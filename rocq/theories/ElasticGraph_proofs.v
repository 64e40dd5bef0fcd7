(** Proofs about the graphs of elastic iterators. *)
From Verif Require Import Base MultiprocessSpec Multiprocess_proofs ElasticGraph ElasticGraphSpec.
From Coq Require Import Permutation.

Local Ltac spl := repeat match goal with |- _ /\ _ => split end.

Section Proofs.
Context {X : Type}.
Notation ds := (ds X).

Definition total (l : list ds) : nat := fold_right (fun p n => nodes p + n)%nat 0%nat l.
Lemma total_app a b : total (a ++ b) = (total a + total b)%nat.
Proof. induction a as [|x a IH]; [easy|]. cbn [app total fold_right]. fold (total (a ++ b)). fold (total a). lia. Qed.
Lemma total_rev a : total (rev a) = total a.
Proof. induction a as [|x a IH]; [easy|]. cbn [rev]. rewrite total_app, IH. cbn [total fold_right]. fold (total a). lia. Qed.
Lemma nodes_parents (d : ds) : nodes d = S (total (parents d)).
Proof. destruct d; reflexivity. Qed.

(** The loops visit everything that is inside, and nothing else. *)
Lemma check_loop_spec bad : forall fuel (st : list ds), (total st <= fuel)%nat ->
  (check_loop bad fuel st = Ok tt /\ forall d x, In d st -> inside d x -> bad x = false) \/
  (check_loop bad fuel st = Raise ValueError /\ exists d x, In d st /\ inside d x /\ bad x = true).
Proof.
  induction fuel as [|fuel IH]; intros [|d st] Hf.
  - left. split; [easy|]. intros d x [].
  - cbn [total fold_right] in Hf. rewrite nodes_parents in Hf. lia.
  - left. split; [easy|]. intros d x [].
  - cbn [check_loop]. destruct (bad d) eqn:Eb.
    + right. split; [easy|]. exists d, d. spl; [now left|constructor|easy].
    + destruct (IH (rev (parents d) ++ st)) as [[E H]|[E (p & x & Hp & Hx & Hb)]].
      * cbn [total fold_right] in Hf. fold (total st) in Hf. rewrite nodes_parents in Hf. rewrite total_app, total_rev. lia.
      * left. split; [easy|]. intros d' x [<-|Hd] Hx.
        -- inversion Hx as [|d0 p x0 Hp Hpx]; subst; [easy|]. apply (H p x); [|easy]. apply in_or_app. left. now apply -> in_rev.
        -- apply (H d' x); [|easy]. apply in_or_app. now right.
      * right. split; [easy|]. apply in_app_or in Hp. destruct Hp as [Hp|Hp].
        -- exists d, x. spl; [now left| |easy]. apply (inside_parent d p); [now apply in_rev|easy].
        -- exists p, x. spl; [now right|easy|easy].
Qed.
Lemma check_root bad (d : ds) :
  (check_loop bad (nodes d) [d] = Ok tt /\ forall x, inside d x -> bad x = false) \/
  (check_loop bad (nodes d) [d] = Raise ValueError /\ exists x, inside d x /\ bad x = true).
Proof.
  destruct (check_loop_spec bad (nodes d) [d]) as [[E H]|[E (p & x & [<-|[]] & Hx & Hb)]]; [cbn; lia|left|right]; (split; [easy|]).
  - intros x Hx. apply (H d x); [now left|easy].
  - now exists x.
Qed.
Lemma check_filter (d : ds) :
  (check_loop is_filter_map (nodes d) [d] = Ok tt /\ ~ contains [CFilterMap] d) \/
  (check_loop is_filter_map (nodes d) [d] = Raise ValueError /\ contains [CFilterMap] d).
Proof.
  destruct (check_root is_filter_map d) as [[E H]|[E (x & Hx & Hb)]]; [left|right]; (split; [easy|]).
  - intros (x & c & Hx & Hc & [<-|[]]). specialize (H x Hx). destruct x; try easy. injection Hc as ->. easy.
  - exists x, CFilterMap. spl; [easy| |now left]. destruct x as [[]| |]; easy.
Qed.
Lemma check_unsupported (d : ds) :
  (check_loop is_unsupported (nodes d) [d] = Ok tt /\ ~ contains [CZip; CMix; CPrefetch] d) \/
  (check_loop is_unsupported (nodes d) [d] = Raise ValueError /\ contains [CZip; CMix; CPrefetch] d).
Proof.
  destruct (check_root is_unsupported d) as [[E H]|[E (x & Hx & Hb)]]; [left|right]; (split; [easy|]).
  - intros (x & c & Hx & Hc & Hi). specialize (H x Hx). destruct x; try easy. injection Hc as ->. destruct Hi as [<-|[<-|[<-|[]]]]; easy.
  - destruct x as [[]| |]; try easy; eexists; eexists; (spl; [exact Hx|reflexivity|cbn; tauto]).
Qed.

Lemma contains_parent cs c (p : ds) ps : In p ps -> contains cs p -> contains cs (Ds c ps).
Proof. intros Hp (x & c' & Hx & H). exists x, c'. split; [|exact H]. now apply (inside_parent _ p). Qed.
Lemma contains_self cs c (ps : list ds) : In c cs -> contains cs (Ds c ps).
Proof. intros H. exists (Ds c ps), c. spl; [constructor|easy|easy]. Qed.
Lemma contains_one cs c (p : ds) : contains cs (Ds c [p]) <-> In c cs \/ contains cs p.
Proof.
  split.
  - intros (x & c' & Hx & Hc & Hi). inversion Hx as [|d0 q x0 Hq Hqx]; subst.
    + injection Hc as <-. now left.
    + cbn in Hq. destruct Hq as [<-|[]]. right. now exists x, c'.
  - intros [H|H]; [now apply contains_self|]. apply (contains_parent _ _ p); [now left|easy].
Qed.
Lemma contains_leaf cs (d : ds) : parents d = [] -> class_of d = None -> ~ contains cs d.
Proof.
  intros Hp Hc (x & c & Hx & Hx' & _). inversion Hx as [|d0 q x0 Hq _]; subst; [congruence|]. now rewrite Hp in Hq.
Qed.
Lemma contains_incl cs cs' (d : ds) : incl cs cs' -> contains cs d -> contains cs' d.
Proof. intros H (x & c & Hx & Hc & Hi). exists x, c. spl; auto. Qed.

Lemma shards_fun (d : ds) l : shards_of d l -> forall l', shards_of d l' -> l = l'.
Proof. induction 1 as [l|l|c p l Hc Hp IH]; intros l' H'; inversion H'; subst; auto. Qed.

(** Without zip, mix and prefetch there is one source at the bottom. *)
Lemma graph_bottom (d : ds) : iter_graph d -> ~ contains [CZip; CMix; CPrefetch] d -> (exists l, shards_of d l) \/ ((forall l, ~ shards_of d l) /\ forall h k, set_slice h k d = Raise ValueError).
Proof.
  induction 1 as [l|l| |c p Hc Hp IH|c ps Hc Hn Hps IH|m Hm]; intros Hno.
  - left. eexists. constructor.
  - left. eexists. constructor.
  - right. split; [|easy]. intros l H. inversion H.
  - destruct IH as [[l Hl]|[Hl Hs]].
    + intros H. apply Hno. apply contains_one. now right.
    + left. exists l. now constructor.
    + right. split.
      * intros l H. inversion H; subst. eapply Hl; eassumption.
      * intros h k. cbn [set_slice map sequence]. rewrite Hs. destruct Hc as [<-|[<-|[<-|[]]]]; reflexivity.
  - exfalso. apply Hno. apply contains_self. destruct Hc as [<-|[<-|[]]]; cbn; tauto.
  - exfalso. apply Hno. apply contains_self. cbn; tauto.
Qed.

Lemma map_stride_parquet k h (l : list X) : map (fun p => Parquet [p]) (stride k h l) = stride k h (map (fun p => Parquet [p]) l).
Proof. apply map_stride. Qed.

Lemma slice_shards h k (d : ds) l : shards_of d l -> exists d', set_slice h k d = Ok d' /\ shards_of d' (stride k h l) /\
  (on_parquet d' <-> on_parquet d) /\ (forall cs, contains cs d' <-> contains cs d) /\ find_sliceable d' <> None /\ is_iter d' = true.
Proof.
  induction 1 as [l|l|c p l Hc Hp (p' & Es & Hs & Ho & Hq & Hf & Hi)].
  - exists (Interleave (stride k h l)). split; [reflexivity|]. split; [apply so_interleave|]. split; [split; intros H; inversion H|].
    split; [|split; [discriminate|reflexivity]]. intros cs. split; intros H; exfalso; revert H; apply contains_leaf; reflexivity.
  - exists (Parquet (stride k h l)). split; [reflexivity|]. split; [rewrite <- map_stride_parquet; apply so_parquet|]. split; [split; intros _; constructor|].
    split; [|split; [discriminate|reflexivity]]. intros cs. split; intros H; exfalso; revert H; apply contains_leaf; reflexivity.
  - exists (Ds c [p']). spl.
    + cbn [set_slice map sequence]. rewrite Es. destruct Hc as [<-|[<-|[<-|[]]]]; reflexivity.
    + now constructor.
    + split; intros H; inversion H; subst; constructor; tauto.
    + intros cs. rewrite !contains_one. now rewrite Hq.
    + cbn [find_sliceable first_some]. rewrite Hi. destruct (find_sliceable p'); [|easy]. destruct Hc as [<-|[<-|[<-|[]]]]; easy.
    + destruct Hc as [<-|[<-|[<-|[]]]]; easy.
Qed.

(** The iterator that is found. *)
Lemma find_shards (d : ds) l : shards_of d l ->
  (find_iter (iter_of d) = Some l /\ ~ contains [CProcess] d /\ ~ (on_parquet d /\ length l = 1%nat)) \/
  (find_iter (iter_of d) = None /\ (contains [CProcess] d \/ (on_parquet d /\ length l = 1%nat))).
Proof.
  induction 1 as [l|l|c p l Hc Hp IH].
  - left. spl; [easy|now apply contains_leaf|]. intros [H _]. inversion H.
  - destruct l as [|x [|y l]].
    + left. spl; [easy|now apply contains_leaf|]. now intros [_ H].
    + right. split; [easy|]. right. split; [constructor|easy].
    + left. spl; [easy|now apply contains_leaf|]. now intros [_ H].
  - assert (Hpq : on_parquet (Ds c [p]) <-> on_parquet p) by (split; intros H; [now inversion H|now constructor]).
    rewrite contains_one, Hpq. destruct Hc as [<-|[<-|[<-|[]]]].
    + cbn [iter_of map find_iter first_some]. destruct IH as [(E & Hno & Hl)|(E & Hor)]; rewrite E.
      * left. spl; [easy| |easy]. intros [[H|[]]|H]; [easy|tauto].
      * right. split; [easy|]. tauto.
    + cbn [iter_of]. destruct IH as [(E & Hno & Hl)|(E & Hor)]; rewrite E.
      * left. spl; [easy| |easy]. intros [[H|[]]|H]; [easy|tauto].
      * right. split; [easy|]. tauto.
    + right. split; [easy|]. left. left. now left.
Qed.
End Proofs.
