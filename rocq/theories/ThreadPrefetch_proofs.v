(** Invariant and measure of the prefetching thread. *)
From Verif Require Import Base Iter IterSpec ListFacts IterLaw ThreadPrefetch ThreadPrefetchSpec.

Section Thread.
Context {A : Type}.
Variables (p : Iter A) (l : list A) (fin used json : bool) (N : nat).
Variables (rep : ist p -> nat -> Prop) (crep : ick p -> nat -> Prop).
Hypothesis L : NewLaw p l fin used json N rep crep.
Variables (fuel size : nat).
Hypothesis Hfuel : (N <= fuel)%nat.

Implicit Types (s : tp p) (b : list (item p)) (g : prog p).

(** The items of the buffer are the elements from position [c] on. *)
Fixpoint elems (c : nat) b : Prop :=
  match b with
  | [] => True
  | IElem a ck :: b' => nth_error l c = Some a /\ crep ck (S c) /\ elems (S c) b'
  | IErr _ :: _ => False
  end.

Lemma elems_snoc c b a ck : elems c b -> nth_error l (c + length b) = Some a -> crep ck (S (c + length b)) ->
  elems c (b ++ [IElem a ck]).
Proof.
  revert c. induction b as [|[a' ck'|o] b IH]; intros c; cbn [elems app length].
  - rewrite Nat.add_0_r. auto.
  - intros (H1 & H2 & H3) Ha Hc. repeat split; auto. apply IH; [easy|now rewrite Nat.add_succ_comm|now rewrite Nat.add_succ_comm].
  - easy.
Qed.

Lemma elems_le c b : (c <= length l)%nat -> elems c b -> (c + length b <= length l)%nat.
Proof.
  revert c. induction b as [|[a ck|o] b IH]; intros c Hc; cbn [elems length]; [lia| |easy].
  intros (H & _ & H3). assert (c < length l)%nat by (apply nth_error_Some; now rewrite H).
  specialize (IH (S c)). specialize (IH ltac:(lia) H3). lia.
Qed.

Definition thread_ok (c : nat) s (t : producer p) : Prop :=
  exists q, rep (tp_parent s) q /\
  match t with
  | PCheck | PRead => q = (c + length (tp_buffer s))%nat /\ elems c (tp_buffer s)
  | PState a =>
      q = S (c + length (tp_buffer s)) /\ nth_error l (c + length (tp_buffer s)) = Some a /\ elems c (tp_buffer s)
  | PPut (IElem a ck) =>
      q = S (c + length (tp_buffer s)) /\ nth_error l (c + length (tp_buffer s)) = Some a /\
      crep ck (S (c + length (tp_buffer s))) /\ elems c (tp_buffer s)
  | PPut (IErr o) => o = Stop /\ fin = true /\ q = length l /\ q = (c + length (tp_buffer s))%nat /\ elems c (tp_buffer s)
  | PDone => exists b, tp_buffer s = b ++ [IErr Stop] /\ fin = true /\ q = length l /\ q = (c + length b)%nat /\ elems c b
  end.

(** Outside of _stop_prefetch. *)
Definition run_ok (fresh : bool) (c : nat) s : Prop :=
  (length (tp_buffer s) <= size)%nat /\ crep (tp_state s) c /\ (c <= length l)%nat /\
  match tp_thread s with
  | None => tp_buffer s = [] /\ rep (tp_parent s) c /\ (fresh = true -> tp_parent s = init p)
  | Some t => (1 <= size)%nat /\ fresh = false /\ tp_stop s = false /\ thread_ok c s t
  end.

(** What follows after _stop_prefetch. *)
Definition target (k : cont p) (c kb : nat) (obs total : list (obs A)) (calls : list call) (ps : list nat) : Prop :=
  match k with
  | KRaise o => o = Stop /\ fin = true /\ c = length l /\ obs ++ Got Stop :: cursor l (erase calls) c ps = total
  | KSet ck => exists q, crep ck q /\ (q <= kb)%nat /\ live l fin q /\ obs ++ Loaded :: cursor l (erase calls) q ps = total
  end.

(** Inside of _stop_prefetch. *)
Definition stop_ok (k : cont p) (c : nat) s : Prop :=
  (length (tp_buffer s) <= size)%nat /\
  match k with
  | KRaise o => crep (tp_state s) c /\ rep (tp_parent s) c /\ (tp_thread s = None \/ tp_thread s = Some PDone)
  | KSet ck => exists q, rep (tp_parent s) q /\ (tp_thread s = Some PRead -> live l fin q) /\
      (used = true \/ (tp_thread s = None /\ tp_parent s = init p))
  end.

(** The calls still to be made keep to the conditions of the theorem. *)
Definition guards (fresh : bool) (calls : list call) (ps : list nat) (kb : nat) : Prop :=
  Forall (fun q => q <= kb /\ q <= length l)%nat ps /\
  (fin = false -> (kb + length calls + size + 1 <= length l)%nat) /\
  (used = false -> fresh_loads fresh (uses calls) = true) /\
  (json = false -> no_json (uses calls) = true) /\
  (size = 0%nat -> ~ In StartPrefetch calls).

Definition inv (total : list (obs A)) g : Prop :=
  exists c ps fresh kb, Forall2 crep (pg_cks g) ps /\ guards fresh (pg_calls g) ps kb /\ (c <= kb)%nat /\
  match pg_at g with
  | Idle => run_ok fresh c (pg_it g) /\ pg_obs g ++ cursor l (erase (pg_calls g)) c ps = total
  | NGet => run_ok false c (pg_it g) /\ fresh = false /\ (c < kb)%nat /\ tp_thread (pg_it g) <> None /\
      pg_obs g ++ cursor l (ONext :: erase (pg_calls g)) c ps = total
  | NDirect => run_ok false c (pg_it g) /\ fresh = false /\ (c < kb)%nat /\ tp_thread (pg_it g) = None /\
      pg_obs g ++ cursor l (ONext :: erase (pg_calls g)) c ps = total
  | NState a => fresh = false /\ (c < kb)%nat /\ tp_thread (pg_it g) = None /\ tp_buffer (pg_it g) = [] /\
      nth_error l c = Some a /\ rep (tp_parent (pg_it g)) (S c) /\
      pg_obs g ++ cursor l (ONext :: erase (pg_calls g)) c ps = total
  | SSet k => fresh = false /\ (1 <= size)%nat /\ tp_thread (pg_it g) <> None /\
      target k c kb (pg_obs g) total (pg_calls g) ps /\
      match k with KRaise _ => stop_ok k c (pg_it g) | KSet _ => used = true /\ run_ok false c (pg_it g) end
  | SClear k => fresh = false /\ (1 <= size)%nat /\ tp_thread (pg_it g) <> None /\ tp_stop (pg_it g) = true /\
      target k c kb (pg_obs g) total (pg_calls g) ps /\ stop_ok k c (pg_it g)
  | SJoin k => fresh = false /\ (1 <= size)%nat /\ tp_thread (pg_it g) <> None /\ tp_stop (pg_it g) = true /\
      (tp_thread (pg_it g) = Some PCheck \/ tp_thread (pg_it g) = Some PDone \/ tp_buffer (pg_it g) = []) /\
      target k c kb (pg_obs g) total (pg_calls g) ps /\ stop_ok k c (pg_it g)
  | SClear2 k => fresh = false /\ tp_thread (pg_it g) = None /\
      target k c kb (pg_obs g) total (pg_calls g) ps /\ stop_ok k c (pg_it g)
  | SDone k => fresh = false /\ tp_thread (pg_it g) = None /\ tp_buffer (pg_it g) = [] /\
      target k c kb (pg_obs g) total (pg_calls g) ps /\ stop_ok k c (pg_it g)
  end.

Local Arguments Nat.ltb : simpl never.
Local Arguments Nat.leb : simpl never.

Lemma full_true b : full size b = true -> (1 <= size)%nat /\ (size <= length b)%nat.
Proof. unfold full. intros H. apply andb_true_iff in H as [H1 H2]. apply Nat.ltb_lt in H1. apply Nat.leb_le in H2. lia. Qed.
Lemma full_false b : (1 <= size)%nat -> full size b = false -> (length b < size)%nat.
Proof.
  unfold full. intros Hs H. apply andb_false_iff in H as [H|H]; [apply Nat.ltb_ge in H; lia|apply Nat.leb_gt in H; lia].
Qed.

Local Ltac spl := repeat match goal with |- _ /\ _ => split end.

(** ** The producer keeps the invariant *)

Lemma run_ok_producer fresh c kb calls ps s s' : guards fresh calls ps kb -> (c <= kb)%nat ->
  run_ok fresh c s -> producer_step p fuel size s = Some s' -> run_ok fresh c s'.
Proof.
  intros (_ & Gf & _) Hck (Hlen & Hst & Hc & Ht) E. unfold producer_step in E.
  destruct (tp_thread s) as [t|] eqn:Et; [|easy]. destruct Ht as (Hs1 & Hfr & Hstop & q & Hrep & Hok).
  destruct t as [| |a|i|].
  - rewrite Hstop in E. injection E as <-. unfold run_ok; cbn. spl; try easy. exists q. cbn. easy.
  - destruct Hok as [Hq Hel].
    pose proof (elems_le c _ Hc Hel) as Hqle.
    destruct (nth_error l q) as [a|] eqn:Ea.
    + destruct (new_next L fuel _ q a Hfuel Hrep Ea) as (ps' & En & Hrep'). rewrite En in E. injection E as <-.
      unfold run_ok; cbn. spl; try easy. exists (S q). cbn. subst q. spl; easy.
    + apply nth_error_None in Ea. assert (q = length l) by lia.
      assert (Hfin : fin = true).
      { destruct fin; [easy|]. specialize (Gf eq_refl). lia. }
      rewrite H in Hrep. destruct (new_stop L fuel _ Hfuel Hfin Hrep) as (ps' & En & Hrep'). rewrite En in E. injection E as <-.
      unfold run_ok; cbn. spl; try easy. exists (length l). cbn. spl; try easy. congruence.
  - injection E as <-. destruct Hok as (Hq & Ha & Hel).
    unfold run_ok; cbn. spl; try easy. exists q. cbn. spl; try easy. subst q. now apply (new_get L).
  - destruct (full size (tp_buffer s)) eqn:Ef; [easy|]. injection E as <-.
    apply full_false in Ef; [|easy]. unfold run_ok; cbn. rewrite app_length; cbn. spl; try easy; try lia.
    destruct i as [a ck|o].
    + destruct Hok as (Hq & Ha & Hck' & Hel). exists q. cbn. rewrite app_length; cbn.
      spl; [easy|lia|]. now apply elems_snoc.
    + destruct Hok as (-> & Hfin & Hq & Hq' & Hel). exists q. cbn. split; [easy|]. exists (tp_buffer s). auto.
  - easy.
Qed.

Lemma stop_ok_producer k c s s' : (1 <= size)%nat -> tp_stop s = true ->
  stop_ok k c s -> producer_step p fuel size s = Some s' -> stop_ok k c s' /\ tp_stop s' = true.
Proof.
  intros Hs1 Hstop (Hlen & Hk) E. unfold producer_step in E.
  destruct (tp_thread s) as [t|] eqn:Et; [|easy].
  destruct k as [o|ck].
  { destruct Hk as (_ & _ & [H|H]); [easy|]. injection H as ->. easy. }
  destruct Hk as (q & Hrep & Hlive & Hu). unfold stop_ok.
  assert (Hu' : used = true) by (destruct Hu as [Hu|[Hu _]]; easy).
  destruct t as [| |a|i|].
  - rewrite Hstop in E. injection E as <-. cbn. spl; auto. exists q. spl; auto. easy.
  - specialize (Hlive eq_refl). destruct Hlive as [Hl|[Hl Hfin]].
    + destruct (nth_error l q) as [a|] eqn:Ea; [|apply nth_error_None in Ea; lia].
      destruct (new_next L fuel _ q a Hfuel Hrep Ea) as (ps' & En & Hrep'). rewrite En in E. injection E as <-.
      cbn. spl; auto. exists (S q). spl; auto. easy.
    + rewrite Hl in Hrep. destruct (new_stop L fuel _ Hfuel Hfin Hrep) as (ps' & En & Hrep'). rewrite En in E.
      injection E as <-. cbn. spl; auto. exists (length l). spl; auto. easy.
  - injection E as <-. cbn. spl; auto. exists q. spl; auto. easy.
  - destruct (full size (tp_buffer s)) eqn:Ef; [easy|]. injection E as <-.
    apply full_false in Ef; [|easy]. cbn. rewrite app_length; cbn. spl; [lia| |easy].
    exists q. spl; auto. now destruct i.
  - easy.
Qed.

Lemma producer_thread s s' : producer_step p fuel size s = Some s' ->
  exists t t', tp_thread s = Some t /\ tp_thread s' = Some t' /\ t <> PDone.
Proof.
  unfold producer_step. intros E. destruct (tp_thread s) as [t|] eqn:Et; [|easy].
  exists t. destruct t as [| |a|i|]; [| | | |easy].
  - destruct (tp_stop s); injection E as <-; cbn; eexists; spl; easy.
  - destruct (next p fuel (tp_parent s)) as [o ps]. injection E as <-. cbn. eexists; spl; easy.
  - injection E as <-. cbn. eexists; spl; easy.
  - destruct (full size (tp_buffer s)); [easy|]. injection E as <-. cbn. eexists; spl; easy.
Qed.

Lemma inv_producer total g s : inv total g -> producer_step p fuel size (pg_it g) = Some s ->
  inv total (mkProg (pg_calls g) (pg_cks g) (pg_obs g) (pg_at g) s).
Proof.
  intros (c & ps & fresh & kb & Hcks & HG & Hc & H) E.
  destruct (producer_thread _ _ E) as (t & t' & Et & Et' & Hnd).
  exists c, ps, fresh, kb. cbn. spl; try easy; try apply HG.
  destruct (pg_at g) as [| | |a|k|k|k|k|k].
  - destruct H as [H1 H2]. split; [|easy]. eapply run_ok_producer; eauto.
  - destruct H as (H1 & -> & H3 & H4 & H5). spl; try easy; try congruence. eapply run_ok_producer; eauto.
  - destruct H as (_ & _ & _ & H & _). congruence.
  - destruct H as (_ & _ & H & _). congruence.
  - destruct H as (-> & Hs1 & Hth & Htg & Hk). spl; try easy; try congruence.
    destruct k as [o|ck].
    + destruct Hk as (_ & _ & _ & [Hk|Hk]); congruence.
    + destruct Hk as (Hu & Hk). split; [easy|]. eapply run_ok_producer; eauto.
  - destruct H as (-> & Hs1 & Hth & Hstop & Htg & Hk).
    destruct (stop_ok_producer _ _ _ _ Hs1 Hstop Hk E). spl; try easy; try congruence.
  - destruct H as (-> & Hs1 & Hth & Hstop & Hb & Htg & Hk).
    destruct (stop_ok_producer _ _ _ _ Hs1 Hstop Hk E).
    spl; try easy; try congruence.
    rewrite Et in Hb. unfold producer_step in E. rewrite Et in E.
    destruct t as [| |a|i|]; [| | | |easy].
    + rewrite Hstop in E. injection E as <-. cbn. auto.
    + destruct Hb as [Hb|[Hb|Hb]]; [easy..|]. destruct (next p fuel _) as [o ?]. injection E as <-. cbn. auto.
    + destruct Hb as [Hb|[Hb|Hb]]; [easy..|]. injection E as <-. cbn. auto.
    + destruct (full size _); [easy|]. injection E as <-. cbn. destruct i; auto.
  - destruct H as (_ & H & _). congruence.
  - destruct H as (_ & H & _). congruence.
Qed.

(** ** The consumer keeps the invariant *)

Lemma guards_cons fresh fresh' call calls ps ps' kb kb' :
  guards fresh (call :: calls) ps kb ->
  (used = false -> fresh_loads fresh (uses (call :: calls)) = true -> fresh_loads fresh' (uses calls) = true) ->
  Forall (fun q => q <= kb' /\ q <= length l)%nat ps' -> (kb' <= S kb)%nat ->
  guards fresh' calls ps' kb'.
Proof.
  intros (G1 & G2 & G3 & G4 & G5) Hf Hps Hkb. unfold guards. spl.
  - easy.
  - intros F. specialize (G2 F). cbn in G2. lia.
  - auto.
  - intros J. specialize (G4 J). cbn in G4. now apply andb_true_iff in G4 as [_ G4].
  - intros Z Hin. apply (G5 Z). now right.
Qed.

Lemma guards_ps fresh calls ps kb : guards fresh calls ps kb -> Forall (fun q => q <= S kb /\ q <= length l)%nat ps.
Proof. intros (G1 & _). eapply Forall_impl; [|exact G1]. cbn. lia. Qed.

Lemma run_ok_start c fresh s : (1 <= size)%nat -> run_ok fresh c s -> run_ok false c (start s) /\ tp_thread (start s) <> None.
Proof.
  intros Hs1 (Hlen & Hst & Hc & Ht). unfold start. destruct (tp_thread s) as [t|] eqn:Et.
  - destruct Ht as (H1 & -> & H2 & H3). split; [|congruence]. unfold run_ok. rewrite Et. spl; easy.
  - destruct Ht as (Hb & Hr & _). unfold run_ok; cbn. split; [|easy]. spl; try easy.
    exists c. cbn. rewrite Hb. cbn. spl; try easy; lia.
Qed.

Lemma inv_consumer total g g' : inv total g -> consumer_step p fuel size g = Some g' -> inv total g'.
Proof.
  intros (c & ps & fresh & kb & Hcks & HG & Hc & H) E. unfold consumer_step in E.
  destruct g as [calls cks obs_ at_ s]. cbn in *.
  destruct at_ as [| | |a|k|k|k|k|k].
  - (* Idle *)
    destruct H as [Hrun Htot]. destruct calls as [|[o|] calls]; [easy| |].
    2:{ injection E as <-.
        assert (Hs1 : (1 <= size)%nat).
        { destruct HG as (_ & _ & _ & _ & G5). destruct size; [|lia]. exfalso. apply G5; [easy|]. now left. }
        destruct (run_ok_start _ _ _ Hs1 Hrun) as [Hr _].
        exists c, ps, false, (S kb). cbn. spl; try easy; try lia.
        apply (guards_cons _ _ _ _ _ _ _ _ HG); [cbn; auto|eapply guards_ps; eauto|lia]. }
    destruct o as [| |i j|].
    + destruct (Nat.ltb 0 size) eqn:Es.
      * apply Nat.ltb_lt in Es. injection E as <-. destruct (run_ok_start _ _ _ ltac:(lia) Hrun) as [Hr Hth].
        exists c, ps, false, (S kb). cbn. spl; try easy; try lia.
        apply (guards_cons _ _ _ _ _ _ _ _ HG); [cbn; auto|eapply guards_ps; eauto|lia].
      * apply Nat.ltb_ge in Es. assert (Hs0 : size = 0%nat) by lia.
        pose proof Hrun as (Hlen & Hst & Hcl & Ht).
        destruct (tp_thread s) as [t|] eqn:Et; [lia|]. destruct Ht as (Hb & Hr & Hfr). rewrite Hb in E. injection E as <-.
        exists c, ps, false, (S kb). cbn. unfold run_ok. rewrite Et, Hb. cbn. spl; try easy; try lia.
        apply (guards_cons _ _ _ _ _ _ _ _ HG); [cbn; auto|eapply guards_ps; eauto|lia].
    + injection E as <-. pose proof Hrun as (Hlen & Hst & Hcl & Ht).
      exists c, (ps ++ [c]), fresh, (S kb). cbn. spl; try easy; try lia.
      * apply Forall2_app; [easy|]. now constructor.
      * apply (guards_cons _ _ _ _ _ _ _ _ HG); [cbn; auto| |lia].
        apply Forall_app. split; [eapply guards_ps; eauto|]. constructor; [lia|easy].
      * rewrite <- app_assoc. exact Htot.
    + pose proof (Forall2_nth_None crep cks ps i Hcks) as HN.
      destruct (nth_error cks i) as [ck|] eqn:Ei.
      * destruct (nth_error ps i) as [q|] eqn:Eq; [|now pose proof (proj2 HN eq_refl)].
        pose proof (Forall2_nth_error crep cks ps i ck q Hcks Ei Eq) as Hcq.
        pose proof HG as (G1 & G2 & G3 & G4 & G5).
        pose proof (proj1 (Forall_forall _ _) G1 q (nth_error_In _ _ Eq)) as [Hq1 Hq2].
        assert (Hck : crep (if j then jsonck p ck else ck) q).
        { destruct j; [|easy]. apply (new_json L); [|easy]. destruct json; [easy|]. now specialize (G4 eq_refl). }
        assert (Hlive : live l fin q).
        { destruct fin eqn:Fin; [|left; specialize (G2 eq_refl); lia]. unfold live. lia. }
        cbn in Htot. rewrite Eq in Htot. injection E as <-.
        set (ck' := if j then jsonck p ck else ck) in *.
        assert (HG' : guards false calls ps (S kb)).
        { apply (guards_cons _ _ _ _ _ _ _ _ HG); [|eapply guards_ps; eauto|lia].
          cbn. intros _ HF. now apply andb_true_iff in HF as [_ HF]. }
        assert (Htg : target (KSet ck') c (S kb) obs_ total calls ps).
        { cbn. exists q. spl; try easy. lia. }
        exists c, ps, false, (S kb). cbn [pg_cks pg_calls pg_at pg_it pg_obs]. spl; try easy; try lia; try apply HG'.
        assert (Hu : used = true \/ fresh = true).
        { destruct used; [auto|]. right. specialize (G3 eq_refl). cbn in G3. now apply andb_true_iff in G3 as [G3 _]. }
        pose proof Hrun as (Hlen & Hst & Hcl & Ht). unfold stopping.
        destruct (tp_thread s) as [t|] eqn:Et.
        -- destruct Ht as (Hs1 & -> & Hstop & Hth). spl; try easy; try congruence.
           destruct Hu; easy.
        -- destruct Ht as (Hb & Hr & Hfr). spl; try easy.
           split; [easy|]. exists c. spl; auto; [now rewrite Et|]. destruct Hu as [Hu|Hu]; auto.
      * injection E as <-. assert (Eq : nth_error ps i = None) by now apply HN.
        cbn in Htot. rewrite Eq in Htot.
        assert (HG' : guards false calls ps (S kb)).
        { apply (guards_cons _ _ _ _ _ _ _ _ HG); [|eapply guards_ps; eauto|lia].
          cbn. intros _ HF. now apply andb_true_iff in HF as [_ HF]. }
        exists c, ps, false, (S kb). cbn. spl; try easy; try lia; try apply HG'.
        { destruct Hrun as (Hlen & Hst & Hcl & Ht). unfold run_ok; spl; auto. destruct (tp_thread s); intuition easy. }
        rewrite <- app_assoc. exact Htot.
    + injection E as <-. exists 0%nat, ps, true, (S kb). cbn. spl; try easy; try lia.
      * apply (guards_cons _ _ _ _ _ _ _ _ HG); [cbn; auto|eapply guards_ps; eauto|lia].
      * unfold run_ok; cbn. spl; try easy; try lia; [apply (new_get L), (new_init L)|apply (new_init L)].
      * rewrite <- app_assoc. exact Htot.
  - (* NGet *)
    destruct H as (Hrun & -> & Hlt & Hth & Htot). pose proof Hrun as (Hlen & Hst & Hcl & Ht).
    destruct (tp_thread s) as [t|] eqn:Et; [|easy]. clear Hth. destruct Ht as (Hs1 & _ & Hstop & q & Hrep & Hok).
    destruct (tp_buffer s) as [|[a ck|o] b] eqn:Eb; [easy| |].
    + injection E as <-.
      assert (He : nth_error l c = Some a /\ crep ck (S c) /\ thread_ok (S c) (with_state (with_buffer s b) ck) t).
      { unfold thread_ok. cbn.
        destruct t as [| |a'|[a' ck'|o']|]; cbn in Hok.
        1,2: destruct Hok as (Hq & H1 & H2 & H3); spl; auto; exists q; spl; auto; lia.
        - destruct Hok as (Hq & Ha & H1 & H2 & H3). rewrite Nat.add_succ_r in Hq, Ha.
          spl; auto. exists q. spl; auto.
        - destruct Hok as (Hq & Ha & Hck' & H1 & H2 & H3). rewrite Nat.add_succ_r in Hq, Ha, Hck'.
          spl; auto. exists q. spl; auto.
        - destruct Hok as (Ho & Hf & Hq & Hq' & H1 & H2 & H3). rewrite Nat.add_succ_r in Hq'.
          spl; auto. exists q. spl; auto.
        - destruct Hok as (b' & Hb' & Hf & Hq & Hq' & Hel).
          destruct b' as [|i b']; [easy|]. injection Hb' as <- ->. cbn in Hel. destruct Hel as (H1 & H2 & H3).
          spl; auto. exists q. split; [easy|]. exists b'. cbn in Hq'. rewrite Nat.add_succ_r in Hq'. auto. }
      destruct He as (Ha & Hck & Htok). rewrite Ha in Htot.
      assert (c < length l)%nat by (apply nth_error_Some; now rewrite Ha).
      exists (S c), ps, false, kb. cbn. spl; try easy; try lia; try apply HG.
      * unfold run_ok. cbn. cbn in Hlen. rewrite Et. spl; auto; lia.
      * rewrite <- app_assoc. exact Htot.
    + assert (Hend : o = Stop /\ b = [] /\ t = PDone /\ fin = true /\ q = length l /\ q = c).
      { destruct t as [| |a'|[a' ck'|o']|]; cbn in Hok; try easy.
        destruct Hok as (b' & Hb' & Hf & Hq & Hq' & Hel).
        destruct b' as [|i b']; cbn in Hb'; [|injection Hb' as <- _; easy].
        injection Hb' as -> ->. cbn in Hq'. spl; auto. lia. }
      destruct Hend as (-> & -> & -> & Hf & Hq & <-).
      injection E as <-. unfold stopping. rewrite Et.
      exists q, ps, false, kb. cbn. spl; try easy; try lia; try apply HG; try congruence.
      * assert (En : nth_error l q = None) by (apply nth_error_None; lia). now rewrite En in Htot.
      * unfold stop_ok; cbn. spl; try easy; try lia. right. exact Et.
  - (* NDirect *)
    destruct H as (Hrun & -> & Hlt & Hth & Htot). pose proof Hrun as (Hlen & Hst & Hcl & Ht).
    rewrite Hth in Ht. destruct Ht as (Hb & Hr & _).
    destruct (nth_error l c) as [a|] eqn:Ea.
    + destruct (new_next L fuel _ c a Hfuel Hr Ea) as (s' & En & Hr'). rewrite En in E. injection E as <-.
      exists c, ps, false, kb. cbn. spl; try easy; try apply HG. now rewrite Ea.
    + apply nth_error_None in Ea. assert (Hcl' : c = length l) by lia.
      assert (Hf : fin = true).
      { destruct HG as (_ & G2 & _). destruct fin; [easy|]. specialize (G2 eq_refl). lia. }
      subst c. destruct (new_stop L fuel _ Hfuel Hf Hr) as (s' & En & Hr'). rewrite En in E. injection E as <-.
      exists (length l), ps, false, kb. cbn. spl; try easy; try apply HG.
      * unfold run_ok. cbn. rewrite Hth, Hb. cbn. spl; try easy. lia.
      * rewrite <- app_assoc. exact Htot.
  - (* NState *)
    destruct H as (-> & Hlt & Hth & Hb & Ha & Hr & Htot). injection E as <-. rewrite Ha in Htot.
    assert (c < length l)%nat by (apply nth_error_Some; now rewrite Ha).
    exists (S c), ps, false, kb. cbn. spl; try easy; try lia; try apply HG.
    + unfold run_ok. cbn. rewrite Hth, Hb. cbn. spl; try easy; try lia. now apply (new_get L).
    + rewrite <- app_assoc. exact Htot.
  - (* SSet *)
    destruct H as (-> & Hs1 & Hth & Htg & Hk). injection E as <-.
    exists c, ps, false, kb. cbn. spl; try easy; try apply HG.
    unfold stop_ok; cbn. split.
    { destruct k; [apply Hk|destruct Hk as (_ & Hk & _); exact Hk]. }
    destruct k as [o|ck]; [apply Hk|].
    destruct Hk as (Hu & Hlen & Hst & Hcl & Ht). cbn.
    destruct (tp_thread s) as [t|] eqn:Et; [|easy]. destruct Ht as (_ & _ & Hstop & q & Hrep & Hok).
    exists q. spl; auto. intros Ht. injection Ht as ->. destruct Hok as (Hq & Hel).
    pose proof (elems_le _ _ Hcl Hel). destruct HG as (_ & G2 & _).
    destruct fin eqn:Fin; [unfold live; lia|]. left. specialize (G2 eq_refl). lia.
  - (* SClear *)
    destruct H as (-> & Hs1 & Hth & Hstop & Htg & Hk). destruct (tp_buffer s) as [|i b] eqn:Eb; injection E as <-.
    + exists c, ps, false, kb. cbn. spl; try easy; auto.
    + exists c, ps, false, kb. cbn. spl; try easy; auto. split.
      * destruct Hk as (Hk & _). rewrite Eb in Hk. cbn in Hk. cbn. lia.
      * destruct k; apply Hk.
  - (* SJoin *)
    destruct H as (-> & Hs1 & Hth & Hstop & Hb & Htg & Hk).
    destruct (tp_thread s) as [[| | | |]|] eqn:Et; try easy. injection E as <-.
    exists c, ps, false, kb. cbn. spl; try easy; auto. split.
    + apply Hk.
    + destruct k as [o|ck]; [|].
      * destruct Hk as (_ & H1 & H2 & _). cbn. auto.
      * destruct Hk as (_ & q & H1 & H2 & H3). cbn. exists q. spl; auto; [easy|]. destruct H3 as [H3|[H3 _]]; [auto|congruence].
  - (* SClear2 *)
    destruct H as (-> & Hth & Htg & Hk). destruct (tp_buffer s) as [|i b] eqn:Eb; injection E as <-.
    + exists c, ps, false, kb. cbn. spl; try easy; auto.
    + exists c, ps, false, kb. cbn. spl; try easy; auto. split.
      * destruct Hk as (Hk & _). rewrite Eb in Hk. cbn in Hk. cbn. lia.
      * destruct k; apply Hk.
  - (* SDone *)
    destruct H as (-> & Hth & Hb & Htg & Hk). destruct k as [o|ck].
    + destruct Htg as (-> & Hf & -> & Htot). destruct Hk as (Hlen & Hst & Hr & _). injection E as <-.
      exists (length l), ps, false, kb. cbn. spl; try easy; try apply HG.
      * unfold run_ok. rewrite Hth. spl; auto. easy.
      * rewrite <- app_assoc. exact Htot.
    + destruct Htg as (q' & Hq' & Hkb & Hlive & Htot). destruct Hk as (Hlen & q & Hr & _ & Hu).
      assert (Hset : exists u, set_state p fuel (tp_parent s) ck = Ok u /\ rep u q').
      { destruct Hu as [Hu|[_ Hu]]; [now apply (new_used L fuel _ q)|]. rewrite Hu. now apply (new_fresh L). }
      destruct Hset as (u & Es & Hr'). rewrite Es in E. injection E as <-.
      exists q', ps, false, kb. cbn. spl; try easy; try apply HG.
      * unfold run_ok. cbn. rewrite Hth, Hb. cbn. spl; try easy; try lia; [now apply (new_get L)|now apply (new_le L _ _ Hr')].
      * rewrite <- app_assoc. exact Htot.
Qed.

(** ** Every execution ends, and only when all calls have been made *)

Definition rank (t : producer p) : nat := match t with PCheck => 4 | PRead => 3 | PState _ => 2 | PPut _ => 1 | PDone => 0 end.
Definition stop_rank (t : producer p) : nat := match t with PRead => 4 | PState _ => 3 | PPut _ => 2 | PCheck => 1 | PDone => 0 end.
Definition pot s : nat :=
  match tp_thread s with
  | None => length (tp_buffer s)
  | Some t => if tp_stop s then 2 * stop_rank t + length (tp_buffer s) else 4 * (size - length (tp_buffer s)) + rank t
  end.
Definition at_weight (a : consumer p) : nat :=
  match a with
  | Idle => 0
  | NGet => 2 * size + 40
  | NDirect => 3
  | NState _ => 2
  | SSet _ => 2 * size + 30
  | SClear _ => 4
  | SJoin _ => 3
  | SClear2 _ => 2
  | SDone _ => 1
  end.
Definition measure g : nat := (10 * size + 100) * length (pg_calls g) + at_weight (pg_at g) + pot (pg_it g).

Lemma pot_producer s s' : ((1 <= size)%nat \/ tp_thread s = None) ->
  (length (tp_buffer s) <= size)%nat -> producer_step p fuel size s = Some s' -> (pot s' < pot s)%nat.
Proof.
  intros Hs1 Hlen E. unfold producer_step in E. unfold pot. destruct (tp_thread s) as [t|] eqn:Et; [|easy].
  destruct Hs1 as [Hs1|Hs1]; [|easy].
  destruct t as [| |a|i|]; [| | | |easy].
  - destruct (tp_stop s) eqn:Es; injection E as <-; cbn; rewrite ?Es; cbn; lia.
  - destruct (next p fuel _) as [o ?]. injection E as <-. cbn. destruct (tp_stop s), o; cbn; lia.
  - injection E as <-. cbn. destruct (tp_stop s); cbn; lia.
  - destruct (full size _) eqn:Ef; [easy|]. apply full_false in Ef; [|easy]. injection E as <-. cbn.
    rewrite app_length. cbn. destruct (tp_stop s), i; cbn; lia.
Qed.

Lemma inv_buffer total g : inv total g ->
  (length (tp_buffer (pg_it g)) <= size)%nat /\ ((1 <= size)%nat \/ tp_thread (pg_it g) = None).
Proof.
  intros (c & ps & fresh & kb & _ & _ & _ & H).
  destruct (pg_at g) as [| | |a|k|k|k|k|k].
  1,2,3: destruct H as [(H1 & _ & _ & H2) _]; split; [easy|]; destruct (tp_thread (pg_it g)); auto; left; apply H2.
  - destruct H as (_ & _ & H1 & H2 & _). rewrite H2. cbn. auto with arith.
  - destruct H as (_ & H1 & _ & _ & H2). split; [|auto]. destruct k; [apply H2|]. destruct H2 as (_ & H2 & _). exact H2.
  - destruct H as (_ & H1 & _ & _ & _ & H2 & _). auto.
  - destruct H as (_ & H1 & _ & _ & _ & _ & H2 & _). auto.
  - destruct H as (_ & H1 & _ & H2 & _). auto.
  - destruct H as (_ & H1 & _ & _ & H2 & _). auto.
Qed.

Lemma pot_bound s : (length (tp_buffer s) <= size)%nat -> (pot s <= 4 * size + 8)%nat.
Proof.
  intros H. unfold pot. destruct (tp_thread s) as [[]|], (tp_stop s); cbn [rank stop_rank]; lia.
Qed.

Lemma measure_step total g g' : inv total g -> tp_step p fuel size g g' -> (measure g' < measure g)%nat.
Proof.
  intros HI Hst. destruct (inv_buffer _ _ HI) as [Hlen Hs1].
  destruct Hst as [E|(s & E & ->)].
  2:{ unfold measure. cbn. pose proof (pot_producer _ _ Hs1 Hlen E). lia. }
  pose proof (inv_consumer _ _ _ HI E) as HI'. destruct (inv_buffer _ _ HI') as [Hlen' _].
  destruct HI as (c & ps & fresh & kb & _ & HG & _ & H).
  unfold consumer_step in E.
  destruct g as [calls cks obs_ at_ s]. cbn [pg_calls pg_cks pg_obs pg_at pg_it] in *.
  pose proof (pot_bound s Hlen) as Hp.
  destruct at_ as [| | |a|k|k|k|k|k].
  - assert (Hcall : forall call calls' cks' obs' at' s', calls = call :: calls' -> (length (tp_buffer s') <= size)%nat ->
      (at_weight at' <= 2 * size + 40)%nat ->
      (measure (mkProg calls' cks' obs' at' s') < measure (mkProg calls cks obs_ Idle s))%nat).
    { intros call0 calls' cks' obs' at' s' -> Hl Ha. unfold measure. cbn [pg_calls pg_cks pg_obs pg_at pg_it length at_weight].
      pose proof (pot_bound s' Hl). lia. }
    destruct calls as [|[o|] calls]; [easy| |].
    2:{ injection E as <-. eapply Hcall; [reflexivity|exact Hlen'|cbn; lia]. }
    destruct o as [| |i j|].
    + destruct (Nat.ltb 0 size); [|destruct (tp_buffer s) eqn:Eb]; injection E as <-;
        (eapply Hcall; [reflexivity|exact Hlen'|cbn [at_weight]; lia]).
    + injection E as <-. eapply Hcall; [reflexivity|exact Hlen'|cbn; lia].
    + destruct (nth_error cks i); injection E as <-; (eapply Hcall; [reflexivity|exact Hlen'|]).
      * unfold stopping. destruct (tp_thread s); cbn [at_weight]; lia.
      * cbn; lia.
    + injection E as <-. eapply Hcall; [reflexivity|exact Hlen'|cbn; lia].
  - destruct (tp_buffer s) as [|[a ck|o] b] eqn:Eb; [easy| |].
    + injection E as <-.  pose proof (pot_bound (with_state (with_buffer s b) ck) Hlen').
      destruct H as (Hr & _ & _ & Hth & _). destruct Hr as (_ & _ & _ & Hr). unfold measure, pot; cbn [pg_calls pg_at pg_it tp_thread tp_buffer tp_stop with_state with_buffer at_weight].
      destruct (tp_thread s) as [t|] eqn:Et; [|easy]. destruct Hr as (_ & _ & -> & _). rewrite Eb. cbn [length]. lia.
    + injection E as <-.  destruct H as (Hr & _ & _ & Hth & _). destruct Hr as (_ & _ & _ & Hr). unfold measure, pot; cbn [pg_calls pg_at pg_it tp_thread tp_buffer tp_stop with_state with_buffer at_weight].
      unfold stopping. destruct (tp_thread s) as [t|] eqn:Et; [|easy]. destruct Hr as (_ & _ & -> & _). rewrite Eb. cbn [length at_weight]. lia.
  - destruct H as (Hr & _ & _ & Hth & _). destruct Hr as (_ & _ & _ & Hr). rewrite Hth in Hr. destruct Hr as (Hb & _).
    destruct (next p fuel _) as [[a| | |] ?]; injection E as <-; unfold measure, pot; cbn; rewrite Hth, Hb; cbn; lia.
  - injection E as <-. destruct H as (_ & _ & Hth & Hb & _). unfold measure, pot; cbn [pg_calls pg_at pg_it tp_thread tp_buffer tp_stop with_state with_buffer at_weight]. rewrite Hth, Hb. cbn. lia.
  - injection E as <-.  pose proof (pot_bound (mkTp (tp_parent s) (tp_buffer s) (tp_thread s) true (tp_state s)) Hlen).
    unfold measure; cbn [pg_calls pg_at pg_it tp_thread tp_buffer tp_stop with_state with_buffer at_weight]; unfold pot at 1; cbn [pg_calls pg_at pg_it tp_thread tp_buffer tp_stop with_state with_buffer at_weight]. destruct (tp_thread s) as [t|]; [|lia]. assert (stop_rank t <= 4)%nat by (destruct t; cbn; lia). lia.
  - destruct H as (_ & _ & Hth & Hstop & _). destruct (tp_buffer s) as [|i b] eqn:Eb; injection E as <-; [unfold measure; cbn [pg_calls pg_at pg_it tp_thread tp_buffer tp_stop with_state with_buffer at_weight]; lia|].
    unfold measure, pot; cbn [pg_calls pg_at pg_it tp_thread tp_buffer tp_stop with_state with_buffer at_weight]. rewrite Eb, Hstop. destruct (tp_thread s); cbn [length]; lia.
  - destruct H as (_ & _ & Hth & Hstop & _).
    destruct (tp_thread s) as [[| | | |]|] eqn:Et; try easy. injection E as <-. unfold measure, pot; cbn [pg_calls pg_at pg_it tp_thread tp_buffer tp_stop with_state with_buffer at_weight]. rewrite Et, Hstop. cbn. lia.
  - destruct H as (_ & Hth & _). destruct (tp_buffer s) as [|i b] eqn:Eb; injection E as <-; [unfold measure; cbn [pg_calls pg_at pg_it tp_thread tp_buffer tp_stop with_state with_buffer at_weight]; lia|].
    unfold measure, pot; cbn [pg_calls pg_at pg_it tp_thread tp_buffer tp_stop with_state with_buffer at_weight]. rewrite Eb, Hth. cbn [length]. lia.
  - destruct H as (_ & Hth & Hb & _). destruct k as [o|ck].
    + injection E as <-. unfold measure. cbn [pg_calls pg_at pg_it at_weight]. lia.
    + destruct (set_state p fuel _ ck); injection E as <-; unfold measure, pot; cbn; rewrite Hth, Hb; cbn; lia.
Qed.

Lemma progress total g : inv total g -> (forall g', ~ tp_step p fuel size g g') -> pg_obs g = total.
Proof.
  intros (c & ps & fresh & kb & Hcks & HG & Hc & H) Hno.
  assert (HC : consumer_step p fuel size g = None).
  { destruct (consumer_step p fuel size g) as [g'|] eqn:E; [|easy]. exfalso. apply (Hno g'). now left. }
  assert (HP : producer_step p fuel size (pg_it g) = None).
  { destruct (producer_step p fuel size (pg_it g)) as [s|] eqn:E; [|easy].
    exfalso. eapply Hno. right. exists s. split; [exact E|reflexivity]. }
  clear Hno. unfold consumer_step in HC. unfold producer_step in HP.
  destruct g as [calls cks obs_ at_ s]. cbn in *.
  destruct at_ as [| | |a|k|k|k|k|k].
  - destruct calls as [|[o|] calls]; [|exfalso|easy].
    + destruct H as [_ H]. cbn in H. now rewrite app_nil_r in H.
    + destruct o as [| |i j|]; try easy.
      * destruct (Nat.ltb 0 size); [easy|]. now destruct (tp_buffer s).
      * now destruct (nth_error cks i).
  - exfalso. destruct H as ((Hlen & _ & _ & Ht) & _ & _ & Hth & _).
    destruct (tp_buffer s) as [|[a ck|o] b] eqn:Eb; [|easy..].
    destruct (tp_thread s) as [t|] eqn:Et; [|easy]. destruct Ht as (Hs1 & _ & Hstop & q & Hr & Hok).
    destruct t as [| |a|i|]; try easy.
    + now rewrite Hstop in HP.
    + now destruct (next p fuel _).
    + destruct (full size []) eqn:Ef; [|easy]. apply full_true in Ef. cbn in Ef. lia.
    + rewrite Eb in Hok. destruct Hok as (b & Hb & _). now destruct b.
  - exfalso. destruct (next p fuel _) as [[a| | |] ?]; easy.
  - easy.
  - easy.
  - exfalso. now destruct (tp_buffer s).
  - exfalso. destruct H as (_ & Hs1 & Hth & Hstop & Hb & _).
    destruct (tp_thread s) as [t|] eqn:Et; [|easy]. destruct t as [| |a|i|]; try easy.
    + now rewrite Hstop in HP.
    + now destruct (next p fuel _).
    + destruct Hb as [Hb|[Hb|Hb]]; [easy..|]. rewrite Hb in HP.
      destruct (full size []) eqn:Ef; [|easy]. apply full_true in Ef. cbn in Ef. lia.
  - exfalso. now destruct (tp_buffer s).
  - exfalso. destruct k as [o|ck]; [easy|]. now destruct (set_state p fuel _ ck).
Qed.

Lemma inv_init calls : guards true calls [] 0 -> inv (cursor l (erase calls) 0 []) (prog_init p calls).
Proof.
  intros HG. exists 0%nat, [], true, 0%nat. cbn. spl; try easy.
  unfold run_ok; cbn. spl; try easy; try lia; [apply (new_get L), (new_init L)|apply (new_init L)].
Qed.

Lemma inv_steps calls n g : guards true calls [] 0 -> nsteps (tp_step p fuel size) n (prog_init p calls) g ->
  inv (cursor l (erase calls) 0 []) g /\ (n + measure g <= measure (prog_init p calls))%nat.
Proof.
  intros HG H. remember (prog_init p calls) as g0 eqn:E0. induction H as [g|n g g' g'' H IH Hst].
  - subst. split; [now apply inv_init|lia].
  - destruct (IH E0) as [HI Hm]. pose proof (measure_step _ _ _ HI Hst). split; [|lia].
    destruct Hst as [Hst|(s & Hst & ->)]; [eapply inv_consumer; eauto|eapply inv_producer; eauto].
Qed.

Lemma inv_prefix total g : inv total g -> exists rest, pg_obs g ++ rest = total.
Proof.
  intros (c & ps & fresh & kb & _ & _ & _ & H).
  destruct (pg_at g) as [| | |a|[o|k]|[o|k]|[o|k]|[o|k]|[o|k]]; cbn [target] in H; decompose [and ex] H; eauto.
Qed.

Lemma prefetch_transparent calls : guards true calls [] 0 -> transparent p l fuel size calls.
Proof.
  intros HG. split; [|split].
  - exists (measure (prog_init p calls)). intros n g H. destruct (inv_steps _ _ _ HG H). lia.
  - intros n g H. destruct (inv_steps _ _ _ HG H) as [HI _]. now apply inv_prefix.
  - intros n g H Hno. destruct (inv_steps _ _ _ HG H) as [HI _]. now apply progress.
Qed.
End Thread.
