(** The law every iterator transformation preserves, and its consequences. *)
From Verif Require Import Base Iter IterSpec ListFacts.

Lemma law_new {A} (it : Iter A) l fin used json N rep crep : Law it l fin used json N rep crep -> NewLaw it l fin used json N rep crep.
Proof.
  intros L. split; [apply (law_init L)|apply (law_le L)|apply (law_next L)|apply (law_stop L)|apply (law_get L)|apply (law_json L)|
                    apply (law_fresh L)|apply (law_used L)].
Qed.
Coercion law_new : Law >-> NewLaw.
Lemma lawful_renewable {A} (it : Iter A) l fin used json : lawful it l fin used json -> renewable it l fin used json.
Proof. intros (N & rep & crep & L). exists N, rep, crep. exact L. Qed.
Lemma renewable_flags {A} (it : Iter A) l fin used json used' json' : renewable it l fin used json ->
  (used' = true -> used = true) -> (json' = true -> json = true) -> renewable it l fin used' json'.
Proof.
  intros (N & rep & crep & L) Hu Hj. exists N, rep, crep. destruct L. split; auto.
  intros fuel s q c p Hf Hu'. intros. eauto.
Qed.
Lemma NewLaw_mono {A} (it : Iter A) l fin used json N N' rep crep : (N <= N')%nat ->
  NewLaw it l fin used json N rep crep -> NewLaw it l fin used json N' rep crep.
Proof.
  intros HN L. split; [apply (new_init L)|apply (new_le L)| | |apply (new_get L)|apply (new_json L)| |].
  - intros fuel s p a Hf. apply (new_next L). lia.
  - intros fuel s Hf. apply (new_stop L). lia.
  - intros fuel c p Hf. apply (new_fresh L). lia.
  - intros fuel s q c p Hf. apply (new_used L). lia.
Qed.

(** ** Weakening *)

Lemma Law_prefix {A} (it : Iter A) l fin used json N rep crep n : Law it l fin used json N rep crep ->
  Law it (firstn n l) false used json N (fun s p => rep s p /\ p <= length (firstn n l))%nat crep.
Proof.
  intros L.
  assert (Hle : (length (firstn n l) <= length l)%nat) by (rewrite firstn_length; lia).
  assert (Hnth : forall p a, nth_error (firstn n l) p = Some a -> nth_error l p = Some a).
  { intros p a H. rewrite <- (firstn_skipn n l). rewrite nth_error_app1; [easy|].
    apply nth_error_Some. now rewrite H. }
  assert (Hlive : forall p, live (firstn n l) false p -> live l fin p /\ (p <= length (firstn n l))%nat).
  { intros p [H|[_ H]]; [|easy]. split; [left|]; lia. }
  split.
  - split; [apply (law_init L)|lia].
  - easy.
  - intros fuel s p a Hf [Hr Hp] Ha.
    destruct (law_next L fuel s p a Hf Hr (Hnth _ _ Ha)) as (s' & E & Hr').
    exists s'. repeat split; try easy.
    assert (p < length (firstn n l))%nat by (apply nth_error_Some; now rewrite Ha). lia.
  - easy.
  - intros s p [Hr _]. now apply (law_get L).
  - intros c p Hj. now apply (law_json L).
  - intros fuel s p Hf [Hr Hp] Hl. apply Hlive in Hl as [Hl H0].
    destruct (law_start L fuel s p Hf Hr Hl) as (s' & E & Hr'). exists s'. auto.
  - intros fuel c p Hf Hc Hl. apply Hlive in Hl as [Hl H0].
    destruct (law_fresh L fuel c p Hf Hc Hl) as (s' & E & Hr'). exists s'. auto.
  - intros fuel s q c p Hf Hu [Hr Hp] Hc Hl. apply Hlive in Hl as [Hl H0].
    destruct (law_used L fuel s q c p Hf Hu Hr Hc Hl) as (s' & E & Hr'). exists s'. auto.
Qed.

Lemma lawful_prefix {A} (it : Iter A) l fin used json n :
  lawful it l fin used json -> lawful it (firstn n l) false used json.
Proof. intros (N & rep & crep & L). do 3 eexists. exact (Law_prefix it l fin used json N rep crep n L). Qed.

Lemma lawful_flags {A} (it : Iter A) l fin used json used' json' :
  lawful it l fin used json -> (used' = true -> used = true) -> (json' = true -> json = true) ->
  lawful it l fin used' json'.
Proof.
  intros (N & rep & crep & L) Hu Hj. exists N, rep, crep. destruct L. split; auto.
  intros fuel s q c p Hf Hu'. intros. eauto.
Qed.

(** ** Every history gives the outputs of the cursor *)

Lemma Forall2_nth_error {A B} (R : A -> B -> Prop) l l' i a b :
  Forall2 R l l' -> nth_error l i = Some a -> nth_error l' i = Some b -> R a b.
Proof.
  intros H. revert i. induction H; intros [|i]; cbn; try easy; [congruence|apply IHForall2].
Qed.

Lemma Forall2_nth_None {A B} (R : A -> B -> Prop) l l' i :
  Forall2 R l l' -> nth_error l i = None <-> nth_error l' i = None.
Proof. intros H. now rewrite !nth_error_None, (Forall2_length _ _ _ H). Qed.

Lemma lawful_checkpointable {A} (it : Iter A) l fin used json :
  lawful it l fin used json -> checkpointable it l fin used json.
Proof.
  intros (N & rep & crep & L). exists N. intros fuel ops Hf Hlen Hu Hj.
  (* the invariant kept along the history; [k] bounds all positions *)
  assert (H : forall ops s cks p ps fresh k,
    rep s p -> Forall2 crep cks ps -> (fresh = true -> s = init it /\ p = 0%nat) ->
    (used = false -> fresh_loads fresh ops = true) ->
    (json = false -> no_json ops = true) ->
    (p <= k)%nat -> Forall (fun q => q <= k /\ q <= length l)%nat ps ->
    (fin = false -> (k + length ops <= length l)%nat) ->
    run it fuel ops s cks = cursor l ops p ps).
  { clear ops Hlen Hu Hj.
    induction ops as [|o ops IH]; intros s cks p ps fresh k Hr Hcs Hfr Hu Hj Hp Hps Hfin; [easy|].
    assert (Hj' : json = false -> no_json ops = true).
    { intros J. specialize (Hj J). cbn in Hj. now apply andb_true_iff in Hj as [_ Hj]. }
    assert (Hps' : Forall (fun q => q <= S k /\ q <= length l)%nat ps)
      by (eapply Forall_impl; [|exact Hps]; cbn; lia).
    assert (Hfin' : fin = false -> (S k + length ops <= length l)%nat)
      by (intros F; specialize (Hfin F); cbn [length] in Hfin; lia).
    pose proof (law_le L _ _ Hr) as Hpl.
    destruct o as [| |i j|]; cbn [run cursor].
    - destruct (nth_error l p) as [a|] eqn:Ea.
      + destruct (law_next L fuel s p a Hf Hr Ea) as (s' & -> & Hr'). f_equal.
        apply (IH s' cks (S p) ps false (S k)); auto; [easy|lia].
      + apply nth_error_None in Ea. assert (p = length l) as -> by lia.
        destruct fin eqn:F; [|specialize (Hfin' eq_refl); lia].
        destruct (law_stop L fuel s Hf eq_refl Hr) as (s' & -> & Hr'). f_equal.
        apply (IH s' cks (length l) ps false (S k)); auto; easy || lia.
    - f_equal. apply (IH s _ p _ fresh (S k)); auto.
      + apply Forall2_app; [easy|]. constructor; [|constructor]. now apply (law_get L).
      + apply Forall_app. split; [easy|]. constructor; [lia|constructor].
    - pose proof (Forall2_nth_None _ _ _ i Hcs) as Hn.
      destruct (nth_error ps i) as [q|] eqn:Eq.
      + destruct (nth_error cks i) as [c|] eqn:Ec; [|now assert (Some q = None) by now apply Hn].
        pose proof (Forall2_nth_error _ _ _ _ _ _ Hcs Ec Eq) as Hc.
        assert (Hc' : crep (if j then jsonck it c else c) q).
        { destruct j; [|easy]. apply (law_json L); [|easy]. destruct json; [easy|].
          specialize (Hj eq_refl). now cbn in Hj. }
        assert (Hq : (q <= k /\ q <= length l)%nat).
        { eapply Forall_forall in Hps; [exact Hps|]. eapply nth_error_In; eassumption. }
        assert (Hl : live l fin q).
        { destruct fin; [unfold live; lia|]. specialize (Hfin' eq_refl). left. lia. }
        assert (Hset : exists s', set_state it fuel s (if j then jsonck it c else c) = Ok s' /\ rep s' q).
        { destruct used eqn:U.
          - now apply (law_used L fuel s p).
          - specialize (Hu eq_refl). cbn in Hu. apply andb_true_iff in Hu as [Hf' _].
            destruct (Hfr Hf') as [-> _]. now apply (law_fresh L). }
        destruct Hset as (s' & -> & Hr'). f_equal.
        apply (IH s' cks q ps false (S k)); auto; [easy| |lia].
        intros U. specialize (Hu U). cbn in Hu. now apply andb_true_iff in Hu as [_ Hu].
      + destruct (nth_error cks i) as [c|] eqn:Ec; [now assert (Some c = None) by now apply Hn|].
        f_equal. apply (IH s cks p ps false (S k)); auto; [easy|].
        intros U. specialize (Hu U). cbn in Hu. now apply andb_true_iff in Hu as [_ Hu].
    - f_equal. apply (IH (init it) cks 0%nat ps true (S k)); auto; [|lia].
      apply (law_init L). }
  apply (H ops (init it) [] 0%nat [] true 0%nat); auto. apply (law_init L).
Qed.

(** ** Reading to the end *)

Lemma drain_from {A} (it : Iter A) l fin used json N rep crep fuel :
  Law it l fin used json N rep crep -> (N <= fuel)%nat -> forall n s p,
  rep s p -> (p + n = length l)%nat ->
  exists s', rep s' (length l) /\ forall k,
    drain it fuel (n + k) s = (skipn p l ++ fst (drain it fuel k s'), snd (drain it fuel k s')).
Proof.
  intros L Hf. induction n as [|n IH]; intros s p Hr Hn.
  - exists s. replace p with (length l) in * by lia. split; [easy|]. intros k.
    rewrite skipn_all. cbn. now destruct drain.
  - destruct (nth_error l p) as [a|] eqn:Ea; [|apply nth_error_None in Ea; lia].
    destruct (law_next L fuel s p a Hf Hr Ea) as (s1 & E & Hr1).
    destruct (IH s1 (S p) Hr1 ltac:(lia)) as (s' & Hr' & Hd).
    exists s'. split; [easy|]. intros k. cbn [plus drain]. rewrite E, Hd.
    now rewrite (skipn_nth_cons _ _ _ Ea).
Qed.

Lemma lawful_elements {A} (it : Iter A) l used json :
  lawful it l true used json -> elements it l.
Proof.
  intros (N & rep & crep & L). exists N. intros fuel Hf.
  destruct (drain_from it l true used json N rep crep fuel L Hf (length l) (init it) 0 (law_init L) eq_refl)
    as (s' & Hr & Hd).
  replace (S (length l)) with (length l + 1)%nat by lia. rewrite Hd. cbn [drain].
  destruct (law_stop L fuel s' Hf eq_refl Hr) as (s2 & -> & _). cbn. now rewrite app_nil_r.
Qed.

Lemma lawful_elements_prefix {A} (it : Iter A) l fin used json :
  lawful it l fin used json -> elements_prefix it l.
Proof.
  intros (N & rep & crep & L). exists N. intros fuel Hf.
  destruct (drain_from it l fin used json N rep crep fuel L Hf (length l) (init it) 0 (law_init L) eq_refl)
    as (s' & Hr & Hd).
  specialize (Hd 0%nat). rewrite Nat.add_0_r in Hd. rewrite Hd. cbn. now rewrite app_nil_r.
Qed.

Lemma lawful_outputs {A} (it : Iter A) l fin used json : lawful it l fin used json -> outputs it l fin.
Proof.
  intros H. destruct fin; cbn.
  - eapply lawful_elements; eauto.
  - eapply lawful_elements_prefix; eauto.
Qed.
