(** Proofs about the element specs of IterDataset pipelines. *)
From Verif Require Import Base MapDatasets Tree SharedMemory Iter Interleave ElementSpec ElementConforms ElementSpec_proofs.

Local Ltac spl := repeat match goal with |- _ /\ _ => split end.

Scheme reach_min := Minimality for reach Sort Prop
  with reach_ck_min := Minimality for reach_ck Sort Prop.
Combined Scheme reach_both from reach_min, reach_ck_min.

Lemma always_by {A} (it : Iter A) (J : ist it -> Prop) (K : ick it -> Prop) (P : A -> Prop) :
  J (init it) ->
  (forall fuel s o s', J s -> next it fuel s = (o, s') -> J s' /\ forall a, o = Yield a -> P a) ->
  (forall s, J s -> K (get_state it s)) -> (forall c, K c -> K (jsonck it c)) ->
  (forall fuel s c s', J s -> K c -> set_state it fuel s c = Ok s' -> J s') -> always it P.
Proof.
  intros Hi Hn Hg Hj Hs.
  assert (H : (forall s, reach it s -> J s) /\ (forall c, reach_ck it c -> K c)).
  { apply reach_both; auto.
    - intros fuel s o s' _ Js E. exact (proj1 (Hn _ _ _ _ Js E)).
    - intros fuel s c s' _ Js _ Kc E. eauto. }
  destruct H as [HJ _]. intros fuel s a s' Hr E. exact (proj2 (Hn _ _ _ _ (HJ _ Hr) E) a eq_refl).
Qed.
Lemma always_impl {A} (it : Iter A) (P Q : A -> Prop) : (forall a, P a -> Q a) -> always it P -> always it Q.
Proof. intros H Ha fuel s a s' Hr E. eauto. Qed.

Section One.
Context {A : Type} (p : Iter A) (P : A -> Prop).
Hypothesis Hp : always p P.

Lemma step_p fuel s o s' : reach p s -> next p fuel s = (o, s') -> reach p s' /\ forall a, o = Yield a -> P a.
Proof. intros Hs E. split; [eapply reach_next; eauto|]. intros a ->. eauto. Qed.

Lemma always_retype {B} (h : A -> B) (Q : B -> Prop) : (forall a, P a -> Q (h a)) -> always (retype h p) Q.
Proof.
  intros Hh. apply (always_by (retype h p) (reach p) (reach_ck p)); cbn [retype init next get_state set_state jsonck].
  - constructor.
  - intros fuel s o s' Hs E. destruct (next p fuel s) as [[a| |e|] s1] eqn:En; cbn in E; injection E as <- <-; destruct (step_p _ _ _ _ Hs En) as [H1 H2]; split; auto; try discriminate.
    intros b Eb. injection Eb as <-. auto.
  - intros; now constructor.
  - intros; now constructor.
  - intros fuel s c s' Hs Hc E. eapply reach_set; eauto.
Qed.

Lemma always_filter thr (f : A -> res bool) : always (filter_it thr f p) P.
Proof.
  apply (always_by (filter_it thr f p) (fun s => reach p (fst s)) (reach_ck p)); cbn [filter_it init next get_state set_state jsonck fst].
  - constructor.
  - intros fuel. induction fuel as [|fuel IH]; intros s o s' Hs E; cbn [filter_next] in E; [injection E as <- <-; split; [exact Hs|discriminate]|].
    destruct (next p fuel (fst s)) as [[a| |e|] s1] eqn:En; cbn [bindn] in E; destruct (step_p _ _ _ _ Hs En) as [H1 H2];
      try (injection E as <- <-; split; [exact H1|discriminate]).
    destruct (f a) as [b|e|].
    + destruct (check thr (snd s) b) as [c [e|]]; [injection E as <- <-; split; [exact H1|discriminate]|].
      destruct b; [injection E as <- <-; split; [exact H1|intros ? Ea; injection Ea as <-; auto]|].
      eapply IH; [|exact E]. exact H1.
    + injection E as <- <-. split; [exact H1|discriminate].
    + injection E as <- <-. split; [exact H1|discriminate].
  - intros; now constructor.
  - intros; now constructor.
  - intros fuel s c s' Hs Hc E. apply bind_ok in E. destruct E as (s1 & E & E'). injection E' as <-. cbn. eapply reach_set; eauto.
Qed.

Lemma always_limit count : always (limit_iter count p) P.
Proof.
  apply (always_by (limit_iter count p) (fun s => reach p (fst s)) (fun c => reach_ck p (fst c))); cbn [limit_iter init next get_state set_state jsonck fst].
  - constructor.
  - intros fuel [s n] o s' Hs E. destruct (n >=? count); [injection E as <- <-; split; [exact Hs|discriminate]|].
    destruct (next p fuel s) as [[a| |e|] s1] eqn:En; cbn [bindn] in E; destruct (step_p _ _ _ _ Hs En) as [H1 H2]; injection E as <- <-; split; auto; discriminate.
  - intros [s n] Hs. now constructor.
  - intros [c n] Hc. now constructor.
  - intros fuel [s n] [c m] s' Hs Hc E. apply bind_ok in E. destruct E as (s1 & E & E'). injection E' as <-. cbn. eapply reach_set; eauto.
Qed.

Lemma always_repeat num_epochs it : repeat_it num_epochs p = Ok it -> always it P.
Proof.
  unfold repeat_it. destruct (match num_epochs with Some _ => _ | None => _ end); [discriminate|]. intros E0. injection E0 as <-.
  match goal with |- always ?i _ => apply (always_by i (fun s => reach p (fst s)) (fun c => reach_ck p (fst c))) end; cbn [init next get_state set_state jsonck fst].
  - constructor.
  - intros fuel [s ep] o s' Hs E. cbn in Hs. destruct (is_last num_epochs ep); [injection E as <- <-; split; [exact Hs|discriminate]|].
    revert s ep o s' Hs E. induction fuel as [|fuel IH]; intros s ep o s' Hs E; cbn [repeat_loop] in E; [injection E as <- <-; split; [exact Hs|discriminate]|].
    destruct (next p fuel s) as [[a| |e|] s1] eqn:En; destruct (step_p _ _ _ _ Hs En) as [H1 H2]; try (injection E as <- <-; split; [exact H1|auto; discriminate]).
    destruct (is_last num_epochs (ep + 1)); [injection E as <- <-; split; [exact H1|discriminate]|].
    destruct (set_state p fuel s1 (get_state p (init p))) as [s2|e|] eqn:Es; try (injection E as <- <-; split; [exact H1|discriminate]).
    eapply IH; [|exact E]. eapply reach_set; [exact H1| |exact Es]. constructor. constructor.
  - intros [s n] Hs. now constructor.
  - intros [c n] Hc. now constructor.
  - intros fuel [s n] [c m] s' Hs Hc E. apply bind_ok in E. destruct E as (s1 & E & E'). injection E' as <-. cbn. eapply reach_set; eauto.
Qed.

Lemma batch_values_sat drop fuel n : forall vs s o s', reach p s -> Forall P vs -> batch_values drop p fuel n vs s = (o, s') ->
  reach p s' /\ forall ws, o = Yield ws -> Forall P ws /\ (length ws <= length vs + n)%nat /\ (drop = true -> length ws = (length vs + n)%nat).
Proof.
  induction n as [|n IH]; intros vs s o s' Hs Hv E; cbn [batch_values] in E.
  - injection E as <- <-. split; [exact Hs|]. intros ws Ew. injection Ew as <-. spl; [exact Hv|lia|intros _; lia].
  - destruct (next p fuel s) as [[a| |e|] s1] eqn:En; destruct (step_p _ _ _ _ Hs En) as [H1 H2].
    + apply IH in E; [|exact H1|apply Forall_app; split; [exact Hv|constructor; [auto|constructor]]].
      destruct E as [Hr E]. split; [exact Hr|]. intros ws Ew. apply E in Ew. rewrite app_length in Ew. cbn [length] in Ew. destruct Ew as (? & ? & ?).
      spl; [assumption|lia|]. intros Hd. rewrite H3 by assumption. lia.
    + destruct drop; injection E as <- <-; split; try exact H1; try discriminate. intros ws Ew. injection Ew as <-. spl; [exact Hv|lia|discriminate].
    + injection E as <- <-. split; [exact H1|discriminate].
    + injection E as <- <-. split; [exact H1|discriminate].
Qed.
Lemma always_batch {B} n drop (f : list A -> res B) (Q : B -> Prop) it : batch_it n drop f p = Ok it ->
  (forall vs y, Forall P vs -> vs <> [] -> Z.of_nat (length vs) <= n -> (drop = true -> Z.of_nat (length vs) = n) -> f vs = Ok y -> Q y) ->
  always it Q.
Proof.
  unfold batch_it. destruct (Z.leb_spec n 0); [discriminate|]. intros E0 Hf. injection E0 as <-.
  apply (always_by (batch_iter n drop f p) (reach p) (reach_ck p)); cbn [batch_iter init next get_state set_state jsonck fst].
  - constructor.
  - intros fuel s o s' Hs E. destruct (batch_values drop p fuel (Z.to_nat n) [] s) as [[vs| |e|] s1] eqn:Eb; cbn [bindn] in E;
      destruct (batch_values_sat _ _ _ _ _ _ _ Hs (Forall_nil _) Eb) as [H1 H2]; try (injection E as <- <-; split; [exact H1|discriminate]).
    destruct (H2 vs eq_refl) as (Hv & Hl & Hd). cbn [length] in *. destruct vs as [|v vs]; [injection E as <- <-; split; [exact H1|discriminate]|].
    injection E as <- <-. split; [exact H1|]. intros y Ey. destruct (f (v :: vs)) as [y'|e|] eqn:Ef; cbn in Ey; try discriminate. injection Ey as ->.
    eapply Hf; [exact Hv|discriminate|lia| |exact Ef]. intros D0. rewrite Hd by assumption. lia.
  - intros; now constructor.
  - intros; now constructor.
  - intros fuel s c s' Hs Hc E. eapply reach_set; eauto.
Qed.

Lemma read_window_sat fuel n : forall w s w' b s', reach p s -> Forall P w -> read_window p fuel n w s = Ok (w', b, s') -> reach p s' /\ Forall P w'.
Proof.
  induction n as [|n IH]; intros w s w' b s' Hs Hw E; cbn [read_window] in E; [injection E as <- <- <-; now split|].
  destruct (next p fuel s) as [[a| |e|] s1] eqn:En; destruct (step_p _ _ _ _ Hs En) as [H1 H2]; try discriminate.
  - eapply IH; [exact H1| |exact E]. apply Forall_app. split; [exact Hw|]. constructor; [auto|constructor].
  - injection E as <- <- <-. now split.
Qed.
Lemma fill_window_sat gk w seed fuel s i x w' b s' : reach p s -> fill_window gk w seed p fuel s i x = Ok (w', b, s') -> reach p s' /\ Forall P w'.
Proof.
  intros Hs E. apply bind_ok in E. destruct E as ([[w0 b0] s0] & Er & E). apply read_window_sat in Er; [|exact Hs|constructor]. destruct Er as [H1 H2].
  apply bind_ok in E. destruct E as (w1 & Es & E). injection E as <- <- <-. split; [exact H1|]. apply Forall_rev.
  unfold reshuffle_window in Es. apply seq_map in Es. apply Forall_forall. intros y Hy. destruct (F2_in_r _ _ _ _ Es Hy) as (q & _ & Eq).
  apply bind_ok in Eq. destruct Eq as (j & _ & Eq). apply pyindex_in in Eq. rewrite Forall_forall in H2. auto.
Qed.
Lemma always_window_shuffle gk w seed : always (window_shuffle_it gk w seed p) P.
Proof.
  set (J := fun s : ws_st (ist p) (ick p) A => reach p (ws_parent s) /\ Forall P (ws_window s) /\ reach_ck p (ws_start s)).
  apply (always_by (window_shuffle_it gk w seed p) J (fun c => reach_ck p (fst (fst c)))); cbn [window_shuffle_it init next get_state set_state jsonck fst].
  - unfold J. cbn. spl; repeat constructor.
  - assert (Hpop : forall s o s', J s -> ws_pop s = (o, s') -> J s' /\ forall a, o = Yield a -> P a).
    { intros s o s' (H1 & H2 & H3) E. unfold ws_pop in E. destruct (ws_window s) as [|a r] eqn:Ew; injection E as <- <-.
      - split; [|discriminate]. unfold J. rewrite Ew. now spl.
      - inversion H2; subst. split; [|intros ? Ea; injection Ea as <-; assumption]. unfold J. cbn. now spl. }
    intros fuel s o s' HJ E. unfold ws_next in E. destruct (ws_window s) as [|a r] eqn:Ew; [|eauto].
    destruct (ws_exhausted s); [injection E as <- <-; split; [exact HJ|discriminate]|].
    destruct (fill_window _ _ _ _ _ _ _ _) as [[[w1 b1] s1]|e|] eqn:Ef; try (injection E as <- <-; split; [exact HJ|discriminate]).
    destruct HJ as (H1 & H2 & H3). eapply Hpop; [|exact E]. apply fill_window_sat in Ef; [|exact H1]. destruct Ef. unfold J. cbn. spl; auto. now constructor.
  - intros s (_ & _ & H). exact H.
  - intros [[c i] n] Hc. now constructor.
  - intros fuel s [[c i] n] s' (H1 & H2 & H3) Hc E. unfold ws_set in E. apply bind_ok in E. destruct E as (s1 & Es & E).
    apply bind_ok in E. destruct E as ([[w1 b1] s2] & Ef & E). injection E as <-. apply fill_window_sat in Ef; [|eapply reach_set; eauto].
    destruct Ef as [Hr Hw]. unfold J. cbn. spl; [exact Hr| |exact Hc].
    apply Forall_forall. intros y Hy. rewrite Forall_forall in Hw. apply Hw. rewrite <- (firstn_skipn (Nat.min n (length w1)) w1). apply in_or_app. now right.
Qed.

Lemma rebuild_sat fuel n : forall c s o s', reach p s -> Forall P c -> rebuild p fuel n c s = (o, s') -> reach p s' /\ forall c', o = Yield c' -> Forall P c'.
Proof.
  induction n as [|n IH]; intros c s o s' Hs Hc E; cbn [rebuild] in E; [injection E as <- <-; split; [exact Hs|intros ? E'; now injection E' as <-]|].
  destruct (next p fuel s) as [[a| |e|] s1] eqn:En; cbn [bindn] in E; destruct (step_p _ _ _ _ Hs En) as [H1 H2]; try (injection E as <- <-; split; [exact H1|discriminate]).
  eapply IH; [exact H1| |exact E]. apply Forall_app. split; [exact Hc|]. constructor; [auto|constructor].
Qed.
Lemma always_cache : always (cache_it p) P.
Proof.
  set (J := fun s : ca_st (ist p) A => reach p (ca_parent s) /\ Forall P (ca_cache s)).
  apply (always_by (cache_it p) J (fun c => reach_ck p (fst (fst c)))); cbn [cache_it init next get_state set_state jsonck fst].
  - unfold J. cbn. split; repeat constructor.
  - assert (Hfetch : forall fuel s o s', J s -> cache_fetch p fuel s = (o, s') -> J s' /\ forall a, o = Yield a -> P a).
    { intros fuel s o s' [H1 H2] E. unfold cache_fetch in E. destruct (next p fuel (ca_parent s)) as [[a| |e|] s1] eqn:En;
        destruct (step_p _ _ _ _ H1 En) as [H3 H4]; injection E as <- <-; split; unfold J; cbn; try discriminate; auto.
      split; [exact H3|]. destruct (Nat.eqb _ _); [|exact H2]. apply Forall_app. split; [exact H2|]. constructor; [auto|constructor]. }
    intros fuel s o s' HJ E. unfold cache_next in E. destruct (ca_filled s).
    + destruct (nth_error (ca_cache s) (ca_pos s)) eqn:En; injection E as <- <-; (split; [exact HJ|]); [|discriminate].
      intros b Eb. injection Eb as <-. apply nth_error_In in En. destruct HJ as [_ HJ]. rewrite Forall_forall in HJ. auto.
    + destruct (ca_rebuild s); [|eauto]. destruct (set_state p fuel _ _) as [s1|e|] eqn:Es; try (injection E as <- <-; split; [exact HJ|discriminate]).
      destruct HJ as [H1 H2]. assert (Hr : reach p s1) by (eapply reach_set; [exact H1| |exact Es]; constructor; constructor).
      destruct (rebuild p fuel (ca_pos s) [] s1) as [[c| |e|] s2] eqn:Eb; cbn [bindn] in E; destruct (rebuild_sat _ _ _ _ _ _ Hr (Forall_nil _) Eb) as [H3 H4];
        try (injection E as <- <-; split; [unfold J; cbn; split; [exact H3|constructor]|discriminate]).
      eapply Hfetch; [|exact E]. unfold J. cbn. split; auto.
  - intros s [H _]. now constructor.
  - intros [[c i] n] Hc. now constructor.
  - intros fuel s [[c i] n] s' [H1 H2] Hc E. apply bind_ok in E. destruct E as (s1 & Es & E). injection E as <-. unfold J. cbn. split; [eapply reach_set; eauto|exact H2].
Qed.
End One.

Section Opt.
Context {A : Type} (p : Iter (option A)) (P Q : A -> Prop).
Hypothesis Hp : always p (present P).

Lemma always_map (f : A -> res (option A)) : (forall x y, P x -> f x = Ok (Some y) -> Q y) -> always (map_it f p) (present Q).
Proof.
  intros Hf. apply (always_by (map_it f p) (reach p) (reach_ck p)); cbn [map_it init next get_state set_state jsonck].
  - constructor.
  - intros fuel s o s' Hs E. destruct (next p fuel s) as [[e| |x|] s1] eqn:En; cbn in E; destruct (step_p _ _ Hp _ _ _ _ Hs En) as [H1 H2];
      injection E as <- <-; (split; [exact H1|]); try discriminate.
    intros y Ey z ->. destruct e as [x|]; cbn in Ey; [|discriminate]. destruct (f x) eqn:Ef; cbn in Ey; try discriminate. injection Ey as ->.
    eapply Hf; [|exact Ef]. now apply (H2 _ eq_refl).
  - intros; now constructor.
  - intros; now constructor.
  - intros fuel s c s' Hs Hc E. eapply reach_set; eauto.
Qed.
Lemma always_map_index (f : Z -> A -> res (option A)) : (forall i x y, P x -> f i x = Ok (Some y) -> Q y) -> always (map_with_index_it f p) (present Q).
Proof.
  intros Hf. apply (always_by (map_with_index_it f p) (fun s => reach p (fst s)) (fun c => reach_ck p (fst c))); cbn [map_with_index_it init next get_state set_state jsonck fst].
  - constructor.
  - intros fuel [s i] o s' Hs E. destruct (next p fuel s) as [[e| |x|] s1] eqn:En; cbn in E; destruct (step_p _ _ Hp _ _ _ _ Hs En) as [H1 H2];
      try (injection E as <- <-; split; [exact H1|discriminate]).
    destruct e as [x|]; cbn in E.
    + destruct (f i x) eqn:Ef; injection E as <- <-; (split; [exact H1|]); try discriminate.
      intros y Ey z ->. injection Ey as ->. eapply Hf; [|exact Ef]. now apply (H2 _ eq_refl).
    + injection E as <- <-. split; [exact H1|]. intros y Ey z ->. discriminate.
  - intros [s n] Hs. now constructor.
  - intros [c n] Hc. now constructor.
  - intros fuel [s n] [c m] s' Hs Hc E. apply bind_ok in E. destruct E as (s1 & E & E'). injection E' as <-. cbn. eapply reach_set; eauto.
Qed.
Lemma always_random_map (f : A -> Z -> res (option A)) rng pi pc : (forall g x y, P x -> f x g = Ok (Some y) -> Q y) -> always (random_map_it f rng pi pc p) (present Q).
Proof.
  intros Hf. apply (always_by (random_map_it f rng pi pc p) (fun s => reach p (fst s)) (fun c => reach_ck p (fst c))); cbn [random_map_it init next get_state set_state jsonck fst].
  - constructor.
  - intros fuel [s i] o s' Hs E. destruct (next p fuel s) as [[e| |x|] s1] eqn:En; cbn in E; destruct (step_p _ _ Hp _ _ _ _ Hs En) as [H1 H2];
      try (injection E as <- <-; split; [exact H1|discriminate]).
    destruct e as [x|]; cbn in E.
    + destruct (f x _) eqn:Ef; injection E as <- <-; (split; [exact H1|]); try discriminate.
      intros y Ey z ->. injection Ey as ->. eapply Hf; [|exact Ef]. now apply (H2 _ eq_refl).
    + injection E as <- <-. split; [exact H1|]. intros y Ey z ->. discriminate.
  - intros [s n] Hs. now constructor.
  - intros [c n] Hc. now constructor.
  - intros fuel [s n] [c m] s' Hs Hc E. apply bind_ok in E. destruct E as (s1 & E & E'). injection E' as <-. cbn. eapply reach_set; eauto.
Qed.
End Opt.

(** ** From a MapDataset *)

Lemma always_prefetch {A} thr an nt bs (ds : MapDs A) (P : A -> Prop) : everywhere ds P -> always (prefetch_it thr an nt bs ds) (present P).
Proof.
  intros [Hds _]. set (J := fun s : pf_st A => Forall (fun r => forall x, r = Ok (Some x) -> P x) (pf_buffer s)).
  assert (Hfb : forall n b nb b' nb', Forall (fun r => forall x, r = Ok (Some x) -> P x) b -> fill_buffer ds n b nb = (b', nb') -> Forall (fun r => forall x, r = Ok (Some x) -> P x) b').
  { induction n as [|n IH]; intros b nb b' nb' Hb E; cbn [fill_buffer] in E; [now injection E as <- <-|]. destruct (nb <? mlen ds); [|now injection E as <- <-].
    eapply IH; [|exact E]. apply Forall_app. split; [exact Hb|]. constructor; [|constructor]. eauto. }
  assert (Hf : forall s, J s -> J (pf_fill ds s)).
  { intros s Hs. unfold pf_fill. destruct (fill_buffer _ _ _ _) eqn:E. unfold J. cbn. eapply Hfb; eauto. }
  assert (Ht : forall s r s', J s -> pf_take ds s = (r, s') -> J s' /\ forall x, r = Ok (Some x) -> P x).
  { intros s r s' Hs E. unfold pf_take in E. destruct (_ && _).
    - set (s0 := match pf_buffer s with [] => pf_fill ds s | _ => s end) in E. assert (H0 : J s0) by (subst s0; destruct (pf_buffer s); auto).
      clearbody s0. unfold J in H0. destruct (pf_buffer s0) as [|r0 rest] eqn:Eb; injection E as <- <-.
      + split; [unfold J; now rewrite Eb|discriminate].
      + inversion H0; subst. split; [apply Hf; unfold J; cbn; assumption|assumption].
    - unfold J in Hs. destruct (pf_buffer s) as [|r0 rest] eqn:Eb.
      + destruct (mget ds (pf_ret s)) eqn:Eg; injection E as <- <-; (split; [unfold J; cbn; try rewrite Eb; constructor|]); try discriminate. intros x Ex. injection Ex as ->. eauto.
      + injection E as <- <-. inversion Hs; subst. split; assumption. }
  apply (always_by (prefetch_it thr an nt bs ds) J (fun _ => True)); cbn [prefetch_it init next get_state set_state jsonck fst]; auto.
  - constructor.
  - intros fuel. induction fuel as [|fuel IH]; intros s o s' Hs E; cbn [prefetch_next] in E; (destruct (pf_ret s =? mlen ds); [injection E as <- <-; split; [exact Hs|discriminate]|]).
    + injection E as <- <-; split; [exact Hs|discriminate].
    + destruct (pf_take ds s) as [[e|x|] s1] eqn:Et; destruct (Ht _ _ _ Hs Et) as [H1 H2]; try (injection E as <- <-; split; [exact H1|discriminate]).
      destruct (check _ _ _) as [c [x|]]; [injection E as <- <-; split; [exact H1|discriminate]|].
      destruct (_ || _); [|eapply IH; [|exact E]; exact H1]. injection E as <- <-. split; [exact H1|]. intros y Ey z ->. injection Ey as ->. auto.
  - intros fuel s c s' Hs _ E. unfold prefetch_set in E. destruct (_ || _); [discriminate|]. injection E as <-. constructor.
Qed.

(** ** Several parents *)

Section Many.
Context {A : Type}.
Fixpoint hreach (ps : list (Iter A)) : hst ps -> Prop :=
  match ps with [] => fun _ => True | p :: ps' => fun s => reach p (fst s) /\ hreach ps' (snd s) end.
Fixpoint hreach_ck (ps : list (Iter A)) : hck ps -> Prop :=
  match ps with [] => fun _ => True | p :: ps' => fun c => reach_ck p (fst c) /\ hreach_ck ps' (snd c) end.
Lemma hreach_init ps : hreach ps (hinit ps).
Proof. induction ps; cbn; [easy|]. split; [constructor|assumption]. Qed.
Lemma hreach_get ps s : hreach ps s -> hreach_ck ps (hget ps s).
Proof. induction ps; cbn; [easy|]. intros []. split; [now constructor|auto]. Qed.
Lemma hreach_json ps c : hreach_ck ps c -> hreach_ck ps (hjson ps c).
Proof. induction ps; cbn; [easy|]. intros []. split; [now constructor|auto]. Qed.
Lemma hreach_set ps fuel s c s' : hreach ps s -> hreach_ck ps c -> hset ps fuel s c = Ok s' -> hreach ps s'.
Proof.
  induction ps as [|p ps IH]; cbn; [easy|]. intros [] [] E. apply bind_ok in E. destruct E as (s1 & E1 & E). apply bind_ok in E. destruct E as (s2 & E2 & E).
  injection E as <-. cbn. split; [eapply reach_set; eauto|eauto].
Qed.
Lemma hreach_next ps P fuel i s o s' : Forall (fun p => always p P) ps -> hreach ps s -> hnext ps fuel i s = (o, s') ->
  hreach ps s' /\ forall a, o = Yield a -> P a.
Proof.
  intros Hp. revert i. induction Hp as [|p ps Hp Hps IH]; intros i Hs E; [cbn in *; injection E as <- <-; split; [easy|discriminate]|].
  cbn [hnext] in E. destruct Hs as [H1 H2]. destruct i as [|i].
  - destruct (next p fuel (fst s)) as [o1 s1] eqn:En. injection E as <- <-. destruct (step_p _ _ Hp _ _ _ _ H1 En). cbn. auto.
  - destruct (hnext ps fuel i (snd s)) as [o1 s1] eqn:En. injection E as <- <-. destruct (IH _ _ _ H2 En). cbn. auto.
Qed.
Lemma always_mixed props (ps : list (Iter A)) P it : Forall (fun p => always p P) ps -> mixed_it props ps = Ok it -> always it P.
Proof.
  intros Hp E0. unfold mixed_it in E0. destruct (existsb _ _); [discriminate|]. destruct (Nat.eqb _ _); [discriminate|]. destruct (negb _); [discriminate|]. injection E0 as <-.
  match goal with |- always ?i _ => apply (always_by i (fun s => hreach ps (fst (fst s))) (fun c => hreach_ck ps (fst (fst c)))) end; cbn [init next get_state set_state jsonck fst].
  - apply hreach_init.
  - intros fuel [[s i] b] o s' Hs E. cbn in Hs. destruct b; [injection E as <- <-; split; [exact Hs|discriminate]|].
    destruct (dataset_and_key i props) as [[d k]|e|]; try (cbn in E; injection E as <- <-; split; [exact Hs|discriminate]).
    destruct (hnext ps fuel (Z.to_nat d) s) as [o1 s1] eqn:En. destruct (hreach_next _ _ _ _ _ _ _ Hp Hs En) as [H1 H2].
    destruct o1; injection E as <- <-; split; try exact H1; auto; discriminate.
  - intros [[s i] b] Hs. now apply hreach_get.
  - intros [[c i] b] Hs. now apply hreach_json.
  - intros fuel [[s i] b] [[c j] b'] s' Hs Hc E. apply bind_ok in E. destruct E as (s1 & E & E'). injection E' as <-. cbn in *. eapply hreach_set; eauto.
Qed.

Lemma zip_check_reach ps fuel s o s' : hreach ps s -> zip_check_stopped ps fuel s = (o, s') -> hreach ps s'.
Proof.
  revert o. induction ps as [|p ps IH]; cbn [zip_check_stopped hst]; intros o Hs E; [now injection E as _ <-|]. destruct Hs as [H1 H2].
  destruct (next p fuel (fst s)) as [o1 s1] eqn:En. assert (reach p s1) by (eapply reach_next; eauto).
  destruct o1; try (injection E as _ <-; split; assumption). destruct (zip_check_stopped ps fuel (snd s)) as [o2 s2] eqn:Ez. injection E as _ <-. split; [assumption|eauto].
Qed.
Lemma zip_pull_reach strict (Ps : list (A -> Prop)) ps : Forall2 (fun P p => always p P) Ps ps -> forall first fuel s o s', hreach ps s ->
  zip_pull strict first ps fuel s = (o, s') -> hreach ps s' /\ forall l, o = Yield l -> Forall2 (fun (P : A -> Prop) a => P a) Ps l.
Proof.
  induction 1 as [|P p Ps ps Hp Hps IH]; intros first fuel s o s' Hs E; cbn [zip_pull] in E.
  - injection E as <- <-. split; [easy|]. intros l El. injection El as <-. constructor.
  - destruct Hs as [H1 H2]. destruct (next p fuel (fst s)) as [o1 s1] eqn:En. destruct (step_p _ _ Hp _ _ _ _ H1 En) as [H3 H4].
    destruct o1.
    + destruct (zip_pull strict false ps fuel (snd s)) as [o2 s2] eqn:Ez. injection E as <- <-. destruct (IH _ _ _ _ _ H2 Ez) as [H5 H6]. split; [split; assumption|].
      intros l El. destruct o2; try discriminate. injection El as <-. constructor; auto.
    + destruct strict; [|injection E as <- <-; split; [split; assumption|discriminate]].
      destruct first; [|injection E as <- <-; split; [split; assumption|discriminate]].
      destruct (zip_check_stopped ps fuel (snd s)) as [o2 s2] eqn:Ez. injection E as <- <-. apply zip_check_reach in Ez; [|exact H2]. split; [split; assumption|].
      intros l El. destruct o2; discriminate.
    + injection E as <- <-. split; [split; assumption|discriminate].
    + injection E as <- <-. split; [split; assumption|discriminate].
Qed.
Lemma always_zip strict Ps (ps : list (Iter A)) it : Forall2 (fun P p => always p P) Ps ps -> zip_it strict ps = Ok it ->
  always it (fun l => Forall2 (fun (P : A -> Prop) a => P a) Ps l).
Proof.
  intros Hp E0. destruct ps as [|p0 ps0]; [discriminate|]. remember (p0 :: ps0) as ps eqn:Eps.
  assert (E1 : it = {| ist := hst ps; ick := hck ps; init := hinit ps; next := fun fuel => zip_pull strict true ps fuel;
     get_state := hget ps; set_state := hset ps; jsonck := hjson ps |}) by (subst ps; unfold zip_it in E0; now injection E0 as <-).
  rewrite E1. match goal with |- always ?i _ => apply (always_by i (hreach ps) (hreach_ck ps)) end; cbn [init next get_state set_state jsonck].
  - apply hreach_init.
  - intros fuel s o s' Hs E. eapply zip_pull_reach; eauto.
  - apply hreach_get.
  - apply hreach_json.
  - intros. eapply hreach_set; eauto.
Qed.
End Many.

(** ** Interleaving *)

Section Inter.
Context {S C A : Type} (ds : list (hiter S C A)) (P : A -> Prop) (GI : S -> Prop) (GC : C -> Prop).
Hypothesis Hinit : forall h, In h ds -> GI (h_init h).
Hypothesis Hnext : forall h fuel s o s', In h ds -> GI s -> h_next h fuel s = (o, s') -> GI s' /\ forall a, o = Yield a -> P a.
Hypothesis Hget : forall h s, In h ds -> GI s -> GC (h_get h s).
Hypothesis Hset : forall h fuel s c s', In h ds -> GI s -> GC c -> h_set h fuel s c = Ok s' -> GI s'.
Hypothesis Hjson : forall h c, In h ds -> GC c -> GC (h_json h c).

Definition slot_ok (o : option (nat * S)) : Prop := forall d s, o = Some (d, s) -> GI s.
Definition kept_ok (o : option (nat * (nat * S))) : Prop := forall i d s, o = Some (i, (d, s)) -> GI s.
Definition ck_ok (o : option C) : Prop := forall c, o = Some c -> GC c.
Record il_ok (s : il S C) : Prop := mkOk {
  ok_its : Forall slot_ok (il_its s); ok_exh : Forall ck_ok (il_exh s); ok_kept : Forall kept_ok (il_kept s);
  ok_fut : Forall (fun kc => GC (snd kc)) (il_fut s) }.
Record ilck_ok (c : ilck C) : Prop := mkCkOk {
  cok_states : Forall ck_ok (ck_states c); cok_fut : Forall (fun kc => GC (snd kc)) (ck_fut c) }.

Lemma F_update {X} (R : X -> Prop) n a l : Forall R l -> R a -> Forall R (update_nth n a l).
Proof. intros Hl Ha. apply Forall_forall. intros x Hx. apply update_nth_in in Hx. destruct Hx as [->|Hx]; [exact Ha|]. rewrite Forall_forall in Hl. auto. Qed.
Lemma F_repeat {X} (R : X -> Prop) n a : R a -> Forall R (List.repeat a n).
Proof. intros Ha. apply Forall_forall. intros x Hx. apply repeat_spec in Hx. now subst. Qed.
Lemma F_nth {X} (R : X -> Prop) l n x : Forall R l -> nth_error l n = Some x -> R x.
Proof. intros Hl E. apply nth_error_In in E. rewrite Forall_forall in Hl. auto. Qed.
Lemma slot_none : slot_ok None. Proof. intros ? ? ?. discriminate. Qed.
Lemma ckn : ck_ok None. Proof. intros ? ?. discriminate. Qed.
Lemma slot_some d s : GI s -> slot_ok (Some (d, s)). Proof. intros H ? ? E. injection E as <- <-. exact H. Qed.
Lemma ck_some c : GC c -> ck_ok (Some c). Proof. intros H ? E. injection E as <-. exact H. Qed.
Lemma fut_pop k (d : fdict C) : Forall (fun kc => GC (snd kc)) d -> Forall (fun kc => GC (snd kc)) (fd_pop k d).
Proof. intros H. apply Forall_forall. intros x Hx. unfold fd_pop in Hx. apply filter_In in Hx. rewrite Forall_forall in H. now apply H. Qed.
Lemma fut_get k (d : fdict C) c : Forall (fun kc => GC (snd kc)) d -> fd_get k d = Some c -> GC c.
Proof. intros H E. unfold fd_get in E. destruct (find _ d) as [kv|] eqn:Ef; [|discriminate]. injection E as <-. apply find_some in Ef. rewrite Forall_forall in H. now apply H. Qed.
Lemma make_ok s d it : make_next ds s = Some (d, it) -> GI it.
Proof. unfold make_next. destruct (nth_error ds (il_pf s)) eqn:E; [|discriminate]. intros H. injection H as <- <-. apply Hinit. eapply nth_error_In; eauto. Qed.

Lemma loop_ok cycle keep fuel0 fuel : forall s o s', il_ok s -> il_loop ds cycle keep fuel0 fuel s = (o, s') -> il_ok s' /\ forall a, o = Yield a -> P a.
Proof.
  induction fuel as [|fuel IH]; intros s o s' Hs E; cbn [il_loop] in E; [injection E as <- <-; split; [exact Hs|discriminate]|].
  pose proof Hs as [H1 H2 H3 H4].
  destruct (nth_error (il_its s) (il_nc s)) as [[[d it]|]|] eqn:Ei; [| |injection E as <- <-; split; [exact Hs|discriminate]].
  - assert (Hit : GI it) by (eapply F_nth in Ei; [|exact H1]; eapply Ei; reflexivity).
    destruct (nth_error ds d) as [h|] eqn:Eh; [|injection E as <- <-; split; [exact Hs|discriminate]]. apply nth_error_In in Eh.
    destruct (h_next h fuel0 it) as [o1 it'] eqn:En. destruct (Hnext _ _ _ _ _ Eh Hit En) as [Hit' Hy].
    destruct o1; try (injection E as <- <-; split; [constructor; cbn; auto; apply F_update; auto; now apply slot_some|auto; discriminate]).
    eapply IH; [|exact E]. constructor; cbn; auto.
    + apply F_update; [exact H1|exact slot_none].
    + apply F_update; [exact H2|]. apply ck_some. auto.
    + destruct keep; [|exact H3]. apply F_update; [exact H3|]. intros i0 d0 s0 E0. injection E0 as _ _ <-. exact Hit'.
  - destruct (Nat.ltb _ _).
    + destruct (make_next ds s) as [[d it]|] eqn:Em; [|injection E as <- <-; split; [exact Hs|discriminate]]. apply make_ok in Em.
      destruct (fd_get _ (il_fut s)) as [c|] eqn:Ef.
      * apply fut_get in Ef; [|exact H4]. destruct (nth_error ds d) as [h|] eqn:Eh.
        -- apply nth_error_In in Eh. destruct (h_set h fuel0 it c) as [it'|e|] eqn:Es.
           ++ apply Hset in Es; auto. eapply IH; [|exact E]. constructor; cbn; auto; try (apply F_update; auto; first [now apply slot_some|exact ckn]). now apply fut_pop.
           ++ injection E as <- <-. split; [|discriminate]. constructor; cbn; auto; try (apply F_update; auto; first [now apply slot_some|exact ckn]). now apply fut_pop.
           ++ injection E as <- <-. split; [exact Hs|discriminate].
        -- eapply IH; [|exact E]. constructor; cbn; auto; try (apply F_update; auto; first [now apply slot_some|exact ckn]).
      * eapply IH; [|exact E]. constructor; cbn; auto; try (apply F_update; auto; first [now apply slot_some|exact ckn]).
    + destruct (existsb _ _); [|injection E as <- <-; split; [exact Hs|discriminate]]. eapply IH; [|exact E]. constructor; cbn; auto.
Qed.

Lemma get_slots_ok n : forall i s cs s', il_ok s -> il_get_slots ds i n s = Ok (cs, s') -> il_ok s' /\ Forall ck_ok cs.
Proof.
  induction n as [|n IH]; intros i s cs s' Hs E; cbn [il_get_slots] in E; [injection E as <- <-; split; [exact Hs|constructor]|].
  pose proof Hs as [H1 H2 H3 H4].
  destruct (nth_error (il_its s) i) as [[[d it]|]|] eqn:Ei; [| |destruct (nth_error (il_exh s) i); discriminate].
  - assert (Hit : GI it) by (eapply F_nth in Ei; [|exact H1]; eapply Ei; reflexivity).
    destruct (nth_error ds d) as [h|] eqn:Eh; [|discriminate]. apply nth_error_In in Eh.
    apply bind_ok in E. destruct E as ([cs1 s1] & E1 & E). injection E as <- <-. apply IH in E1; [|exact Hs]. destruct E1. split; [assumption|]. constructor; [apply ck_some; auto|assumption].
  - destruct (nth_error (il_exh s) i) as [[c|]|] eqn:Ee; [| |discriminate].
    + apply bind_ok in E. destruct E as ([cs1 s1] & E1 & E). injection E as <- <-. apply IH in E1; [|exact Hs]. destruct E1. split; [assumption|]. constructor; [|assumption].
      eapply F_nth in Ee; [|exact H2]. exact Ee.
    + destruct (Nat.leb _ _); [injection E as <- <-; split; [exact Hs|]; apply (F_repeat ck_ok (Datatypes.S n)); exact ckn|].
      match type of E with match ?m with _ => _ end = _ => destruct m as [[d it]|] eqn:Em; [|discriminate] end.
      assert (Hit : GI it).
      { destruct (il_started s); [eapply make_ok; eauto|]. destruct (nth_error ds (il_nd s)) eqn:En; [|discriminate]. injection Em as <- <-. apply Hinit. eapply nth_error_In; eauto. }
      destruct (nth_error ds d) as [h|] eqn:Eh; [|discriminate]. apply nth_error_In in Eh.
      apply bind_ok in E. destruct E as ([cs1 s1] & E1 & E). injection E as <- <-. apply IH in E1.
      * destruct E1. split; [assumption|]. constructor; [apply ck_some; auto|assumption].
      * constructor; cbn; auto. apply F_update; auto. now apply slot_some.
Qed.
Lemma get_ok cycle s c s' : il_ok s -> il_get ds cycle s = Ok (c, s') -> ilck_ok c.
Proof.
  intros Hs E. apply bind_ok in E. destruct E as ([cs s1] & E1 & E). apply get_slots_ok in E1; [|exact Hs]. destruct E1 as [H1 H2].
  injection E as <- <-. constructor; cbn; [exact H2|]. destruct (il_started s1); apply H1.
Qed.

Lemma set_slots_ok keep truthy fuel : forall entries k exh s s', Forall (fun e => ck_ok (snd e)) entries -> il_ok s ->
  il_set_slots ds keep truthy fuel k entries exh s = Ok s' -> il_ok s'.
Proof.
  induction entries as [|[d [c|]] entries IH]; intros k exh s s' He Hs E; cbn [il_set_slots] in E; [now injection E as <-| |].
  - inversion He as [|? ? Hc He']; subst. cbn in Hc. specialize (Hc c eq_refl). pose proof Hs as [H1 H2 H3 H4].
    destruct (nth_error exh k) as [[|]|]; [| |discriminate].
    + destruct (nth_error (il_its s) k); [|discriminate]. eapply IH; [exact He'| |exact E]. constructor; cbn; auto; apply F_update; auto; [exact slot_none|now apply ck_some].
    + destruct (nth_error (il_its s) k) as [cur|] eqn:Ei; [|discriminate]. apply bind_ok in E. destruct E as ([[d1 it] kept'] & Em & E).
      assert (Hk : GI it /\ Forall kept_ok kept').
      { assert (Hfresh : forall r, match nth_error ds d with Some h => Ok ((d, h_init h), il_kept s) | None => Raise IndexError end = Ok r -> GI (snd (fst r)) /\ Forall kept_ok (snd r)).
        { intros r Er. destruct (nth_error ds d) eqn:En; [|discriminate]. injection Er as <-. cbn. split; [apply Hinit; eapply nth_error_In; eauto|exact H3]. }
        assert (Hkept : forall r, match keep, nth k (il_kept s) None with
                              | true, Some (d', it') =>
                                  if Nat.eqb d' d then Ok (it', update_nth k None (il_kept s))
                                  else match nth_error ds d with Some h => Ok ((d, h_init h), il_kept s) | None => Raise IndexError end
                              | _, _ => match nth_error ds d with Some h => Ok ((d, h_init h), il_kept s) | None => Raise IndexError end
                              end = Ok r -> GI (snd (fst r)) /\ Forall kept_ok (snd r)).
        { intros r Er. destruct keep; [|now apply Hfresh]. destruct (nth k (il_kept s) None) as [[d' [d2 it']]|] eqn:Ek; [|now apply Hfresh].
          destruct (Nat.eqb d' d); [|now apply Hfresh]. injection Er as <-. cbn. split.
          - destruct (le_lt_dec (length (il_kept s)) k) as [Hle|Hlt]; [rewrite nth_overflow in Ek by exact Hle; discriminate|].
            rewrite Forall_forall in H3. eapply H3; [apply (nth_In _ None Hlt)|exact Ek].
          - apply F_update; [exact H3|]. intros ? ? ? ?. discriminate. }
        destruct cur as [[d0 it0]|].
        - destruct (Nat.eqb _ _); [|apply (Hkept _ Em)]. injection Em as <- <- <-. split; [|exact H3]. eapply F_nth in Ei; [|exact H1]. eapply Ei; reflexivity.
        - apply (Hkept _ Em). }
      destruct Hk as [Hit Hkp]. cbn [fst snd] in E. destruct (nth_error ds d1) as [h|] eqn:Eh; [|discriminate]. apply nth_error_In in Eh.
      apply bind_ok in E. destruct E as (st & Est & E). assert (GI st) by (destruct (truthy c); [eapply Hset; eauto|now injection Est as <-]).
      eapply IH; [exact He'| |exact E]. constructor; cbn; auto. apply F_update; auto. now apply slot_some.
  - inversion He as [|? ? Hc He']; subst. pose proof Hs as [H1 H2 H3 H4].
    destruct (Nat.ltb _ _); [|discriminate]. eapply IH; [exact He'| |exact E]. constructor; cbn; auto. apply F_update; auto. exact slot_none.
Qed.

Lemma always_interleave_it cycle keep truthy : always (interleave_it ds cycle keep truthy) P.
Proof.
  apply (always_by (interleave_it ds cycle keep truthy) il_ok (fun r => forall c, r = Ok c -> ilck_ok c)); cbn [interleave_it init next get_state set_state jsonck].
  - constructor; cbn; try constructor; apply F_repeat; [exact slot_none|exact ckn|intros ? ? ? ?; discriminate].
  - intros fuel s o s' Hs E. unfold il_next in E. eapply loop_ok; [|exact E]. destruct Hs. constructor; cbn; auto.
  - intros s Hs c E. apply bind_ok in E. destruct E as ([c1 s1] & E & E'). injection E' as ->. eapply get_ok; eauto.
  - intros r Hr c E. apply bind_ok in E. destruct E as (c1 & -> & E). injection E as <-. destruct (Hr c1 eq_refl) as [H1 H2].
    assert (Hj : forall d c, GC c -> GC (match nth_error ds d with Some h => h_json h | None => fun x => x end c)).
    { intros d c Hc. destruct (nth_error ds d) eqn:En; [|exact Hc]. apply Hjson; [eapply nth_error_In; eauto|exact Hc]. }
    constructor; cbn.
    + apply Forall_forall. intros o Ho. apply in_map_iff in Ho. destruct Ho as ([d oc] & <- & Hin). apply in_combine_r in Hin. rewrite Forall_forall in H1. specialize (H1 _ Hin).
      destruct oc; cbn; [apply ck_some; apply Hj; now apply H1|exact ckn].
    + apply Forall_forall. intros o Ho. apply in_map_iff in Ho. destruct Ho as ([k c] & <- & Hin). rewrite Forall_forall in H2. specialize (H2 _ Hin). destruct k; cbn; apply Hj; exact H2.
  - intros fuel s r s' Hs Hr E. apply bind_ok in E. destruct E as (c & -> & E). specialize (Hr c eq_refl). apply bind_ok in E. destruct E as (s1 & E1 & E). injection E as <-.
    apply set_slots_ok in E1; [|apply Forall_forall; intros [d oc] Hin; apply in_combine_r in Hin; destruct Hr as [Hr _]; rewrite Forall_forall in Hr; cbn; auto|exact Hs].
    destruct E1, Hr. constructor; cbn; auto.
Qed.
End Inter.

Lemma cast_some {X : nat -> Type} d (x : {e : nat & X e}) y : cast d x = Some y -> x = existT _ d y.
Proof. unfold cast. destruct x as [e x]. cbn [projT1 projT2]. intros E. destruct (Nat.eq_dec e d) as [e0|]; [|discriminate E]. destruct e0. cbn in E. exact (f_equal (fun o => match o with Some z => existT X e z | None => existT X e x end) E). Qed.

Lemma always_interleave {A} (ps : list (Iter A)) P cycle keep truthy : (forall p, In p ps -> always p P) -> always (interleave ps cycle keep truthy) P.
Proof.
  intros Hp. unfold interleave.
  set (GI := fun s : {e : nat & ist (nth_it ps e)} => (projT1 s < length ps)%nat /\ reach (nth_it ps (projT1 s)) (projT2 s)).
  set (GC := fun c : {e : nat & ick (nth_it ps e)} => reach_ck (nth_it ps (projT1 c)) (projT2 c)).
  assert (Hin : forall h, In h (embed ps) -> exists d, (d < length ps)%nat /\ h = embed1 ps d).
  { intros h Hh. unfold embed in Hh. apply in_map_iff in Hh. destruct Hh as (d & <- & Hd). apply in_seq in Hd. exists d. split; [lia|reflexivity]. }
  assert (Hn : forall d, (d < length ps)%nat -> always (nth_it ps d) P) by (intros d Hd; apply Hp; unfold nth_it; now apply nth_In).
  apply (always_interleave_it (embed ps) P GI GC).
  - intros h Hh. destruct (Hin h Hh) as (d & Hd & ->). split; [exact Hd|]. constructor.
  - intros h fuel s o s' Hh [Hs1 Hs2] E. destruct (Hin h Hh) as (d & Hd & ->). cbn [embed1 h_next] in E. destruct (cast d s) as [x|] eqn:Ec.
    + apply (cast_some (X := fun e => ist (nth_it ps e))) in Ec. subst s. cbn in Hs1, Hs2. destruct (next (nth_it ps d) fuel x) as [o1 x'] eqn:En. injection E as <- <-.
      destruct (step_p _ _ (Hn d Hd) _ _ _ _ Hs2 En). split; [split; assumption|assumption].
    + injection E as <- <-. split; [now split|discriminate].
  - intros h s Hh [Hs1 Hs2]. destruct (Hin h Hh) as (d & Hd & ->). cbn [embed1 h_get]. destruct (cast d s) as [x|] eqn:Ec.
    + apply (cast_some (X := fun e => ist (nth_it ps e))) in Ec. subst s. unfold GC. cbn. now constructor.
    + unfold GC. cbn. constructor. constructor.
  - intros h fuel s c s' Hh [Hs1 Hs2] Hc E. destruct (Hin h Hh) as (d & Hd & ->). cbn [embed1 h_set] in E. destruct (cast d s) as [x|] eqn:Ec; [|discriminate].
    destruct (cast d c) as [y|] eqn:Ec'; [|discriminate]. apply (cast_some (X := fun e => ist (nth_it ps e))) in Ec. apply (cast_some (X := fun e => ick (nth_it ps e))) in Ec'. subst. apply bind_ok in E. destruct E as (x' & E & E'). injection E' as <-. split; [exact Hd|]. cbn in *. eapply reach_set; eauto.
  - intros h c Hh Hc. destruct (Hin h Hh) as (d & Hd & ->). cbn [embed1 h_json]. destruct (cast d c) as [y|] eqn:Ec'; [|exact Hc]. apply (cast_some (X := fun e => ick (nth_it ps e))) in Ec'. subst. unfold GC in *. cbn in *. now constructor.
Qed.

(** ** Rebatching *)

Section Rebatch.
Context {D V : Type} (np : numpy D V).
Hypothesis np_same : forall d ds, ds <> [] -> Forall (eq d) ds -> np_result np ds = d.

Lemma conf_flatten sp (x : elem D V) : conforms sp x -> Forall2 leaf_ok (flatten sp) (flatten x).
Proof.
  revert x. induction sp as [s|tag sps IH|tag sps IH] using tree_induct; intros x Hx.
  - apply conf_leaf in Hx. destruct Hx as (o & -> & Ho). cbn. constructor; [exact Ho|constructor].
  - inversion Hx as [|? ? xs HF|]; subst. cbn [flatten]. clear Hx. revert IH. induction HF; intros IH; cbn; [constructor|]. inversion IH; subst. apply Forall2_app; auto.
  - inversion Hx as [| |? ? xs Hk HF HF2]; subst. cbn [flatten]. clear Hx Hk HF. revert xs IH HF2.
    induction sps as [|[k sp] sps IHs]; intros [|[k' x] xs] IH HF2; inversion HF2; subst; cbn; [constructor|]. inversion IH; subst. apply Forall2_app; auto.
Qed.

Lemma unflatten_iter_conf (g : sds D -> sds D) sp : forall (td : elem D V) more ls (t : elem D V) rest, conforms sp td ->
  Forall2 leaf_ok (map g (flatten sp) ++ more) ls -> unflatten_iter_as td ls = Ok (t, rest) -> conforms (tmap g sp) t /\ Forall2 leaf_ok more rest.
Proof.
  induction sp as [s|tag sps IH|tag sps IH] using tree_induct; intros td more ls t rest Hx Hl E.
  - apply conf_leaf in Hx. destruct Hx as (o & -> & Ho). cbn in Hl, E. inversion Hl; subst. injection E as <- <-. split; [now apply conf_leaf'|assumption].
  - inversion Hx as [|? ? xs HF|]; subst. cbn [unflatten_iter_as] in E. apply bind_ok in E. destruct E as ([items' l'] & E & E'). injection E' as <- <-. cbn [tmap].
    enough (H : Forall2 conforms (map (tmap g) sps) items' /\ Forall2 leaf_ok more l') by (destruct H; split; [now constructor|assumption]).
    clear Hx. cbn [flatten] in Hl. revert ls items' IH Hl E. induction HF as [|sp x sps xs Hx HF IHF]; intros ls items' IH Hl E.
    + injection E as <- <-. split; [constructor|exact Hl].
    + inversion IH as [|? ? IH1 IH2]; subst. cbn [flat_map] in Hl. rewrite map_app, <- app_assoc in Hl. apply bind_ok in E. destruct E as ([y l1] & Ey & E). apply bind_ok in E. destruct E as ([ys l2] & Eys & E). injection E as <- <-.
      destruct (IH1 _ _ _ _ _ Hx Hl Ey) as [H1 H2]. destruct (IHF _ _ IH2 H2 Eys) as [H3 H4]. split; [cbn; now constructor|exact H4].
  - inversion Hx as [| |? ? xs Hk HF HF2]; subst. cbn [unflatten_iter_as] in E. apply bind_ok in E. destruct E as ([items' l'] & E & E'). injection E' as <- <-. cbn [tmap].
    enough (H : map fst items' = map fst xs /\ Forall2 conforms (map snd (map (fun kx => (fst kx, tmap g (snd kx))) sps)) (map snd items') /\ Forall2 leaf_ok more l').
    { destruct H as (H1 & H2 & H3). split; [|exact H3]. constructor; [rewrite map_map; exact Hk| |exact H2]. rewrite map_map. etransitivity; [exact HF|symmetry; exact H1]. }
    clear Hx Hk HF. cbn [flatten] in Hl. revert xs ls items' IH HF2 Hl E. induction sps as [|[k sp] sps IHs]; intros [|[k' x] xs] ls items' IH HF2 Hl E; inversion HF2; subst.
    + injection E as <- <-. spl; [reflexivity|constructor|exact Hl].
    + inversion IH as [|? ? IH1 IH2]; subst. cbn [flat_map snd] in Hl. rewrite map_app, <- app_assoc in Hl. apply bind_ok in E. destruct E as ([y l1] & Ey & E). apply bind_ok in E. destruct E as ([ys l2] & Eys & E). injection E as <- <-.
      destruct (IH1 _ _ _ _ _ H2 Hl Ey) as [H1 H5]. destruct (IHs _ _ _ IH2 H4 H5 Eys) as (H6 & H7 & H8). spl; [cbn; now rewrite H6|cbn; now constructor|exact H8].
Qed.
Lemma unflatten_conf (g : sds D -> sds D) sp (td t : elem D V) ls : conforms sp td -> Forall2 leaf_ok (map g (flatten sp)) ls ->
  unflatten_as td ls = Ok t -> conforms (tmap g sp) t.
Proof.
  intros Hx Hl E. apply bind_ok in E. destruct E as ([t' r] & E & E'). injection E' as <-.
  apply (unflatten_iter_conf g sp td [] ls t' r Hx); [now rewrite app_nil_r|exact E].
Qed.

Definition row_ok (s : sds D) (r : @row D V) : Prop := fst (fst r) = s_dtype s /\ Forall2 dim_matches (tl (s_shape s)) (snd (fst r)).
Definition rows_ok (n : nat) (s : sds D) (rows : list (@row D V)) : Prop := length rows = n /\ Forall (row_ok s) rows.

Lemma rows_of_ok s o rows : leaf_ok s o -> rows_of o = Ok rows -> exists a, o = Some a /\ rows_ok (Z.to_nat (hd 0 (a_shape a))) s rows.
Proof.
  destruct o as [a|]; cbn; [|easy]. intros [H1 H2] E. exists a. split; [reflexivity|]. destruct (a_shape a) as [|n sh] eqn:Ea; [discriminate|]. injection E as <-.
  inversion H2 as [|d0 n0 ds ns Hd Hds E1 E2]; subst. split; [now rewrite map_length, seq_length|]. apply Forall_forall. intros r Hr. apply in_map_iff in Hr. destruct Hr as (i & <- & _).
  split; cbn; [exact H1|]. rewrite <- E1. exact Hds.
Qed.
Lemma of_rows_ok n s o rows o' : (0 < n)%nat -> rows_ok n s rows -> of_rows np o rows = Ok o' -> leaf_ok (mkSds (Some (Z.of_nat n) :: tl (s_shape s)) (s_dtype s)) o'.
Proof.
  intros Hn [Hl Hr] E. destruct rows as [|[[d sh] vs] rows]; [cbn in Hl; lia|]. cbn [of_rows] in E. destruct (forallb _ _); [|discriminate].
  assert (Hd : np_result np (map (fun r => fst (fst r)) ((d, sh, vs) :: rows)) = s_dtype s).
  { apply np_same; [discriminate|]. apply Forall_forall. intros x Hx. apply in_map_iff in Hx. destruct Hx as (r & <- & Hx). rewrite Forall_forall in Hr. symmetry. now apply Hr. }
  injection E as <-. cbn [leaf_ok a_dtype a_shape s_dtype s_shape]. split; [exact Hd|]. constructor.
  - cbn [dim_matches]. exact (f_equal Z.of_nat Hl).
  - inversion Hr as [|? ? H1 ?]; subst. apply H1.
Qed.
Lemma slice_ok n s rows i j : rows_ok n s rows -> 0 <= i <= j -> j <= Z.of_nat n -> rows_ok (Z.to_nat (j - i)) s (slice_rows i j rows).
Proof.
  intros [Hl Hr] Hi Hj. unfold slice_rows. split.
  - rewrite firstn_length, skipn_length. lia.
  - apply Forall_forall. intros r Hin. rewrite Forall_forall in Hr. apply Hr.
    assert (H : forall k (l : list (@row D V)) a, In a (firstn k l) -> In a l) by (intros k l a Ha; rewrite <- (firstn_skipn k l); apply in_or_app; now left).
    apply H in Hin. rewrite <- (firstn_skipn (Z.to_nat i) rows). apply in_or_app. now right.
Qed.

Section It.
Variable p : Iter (option (elem D V)).
Variable sp : spec D.
Variable N B : Z.
Hypothesis Hp : always p (present (conforms sp)).
Hypothesis Hrows : always p (present (has_rows N)).
Hypothesis HB : 0 < B.
Let M := Z.to_nat N.

Record rb_ok (s : rb_st (ist (flattened p)) (ick (flattened p)) (@row D V)) : Prop := mkRbOk {
  rb_reach : reach p (fst (rb_parent s));
  rb_td : forall td, snd (rb_parent s) = Some td -> conforms sp td;
  rb_cur : forall b, rb_current s = Some b -> snd (rb_parent s) <> None /\ Forall2 (rows_ok M) (flatten sp) b;
  rb_lastok : reach_ck p (rb_last s);
  rb_idxok : 0 <= rb_idx s <= Z.of_nat M }.
Definition acc_ok (n : Z) (acc : option (leaves (@row D V))) (td : option (elem D V)) : Prop :=
  match acc with None => n = 0 | Some a => td <> None /\ Forall2 (rows_ok (Z.to_nat n)) (flatten sp) a end.

Lemma append_ok n k acc td rows : 0 <= n -> 0 <= k -> td <> None -> acc_ok n acc td -> Forall2 (rows_ok (Z.to_nat k)) (flatten sp) rows ->
  acc_ok (n + k) (Some (append_rows acc rows)) td.
Proof.
  intros Hn Hk Htd Ha Hr. split; [exact Htd|]. destruct acc as [a|]; cbn [append_rows acc_ok] in *; [|now rewrite Ha, Z.add_0_l].
  destruct Ha as [_ Ha]. revert rows Hr. induction Ha as [|s x sps xs Hx Hxs IH]; intros rows Hr; inversion Hr as [|? y ? ys Hy Hys]; subst; cbn; [constructor|].
  constructor; [|auto]. destruct Hx as [Hx1 Hx2], Hy as [Hy1 Hy2]. split; [rewrite app_length; lia|apply Forall_app; split; assumption].
Qed.
Lemma next_flat fuel s td o s' : reach p s -> (forall t, td = Some t -> conforms sp t) -> next (flattened p) fuel (s, td) = (o, s') ->
  reach p (fst s') /\ (forall t, snd s' = Some t -> conforms sp t) /\ (td <> None -> snd s' <> None) /\
  forall b, o = Yield b -> snd s' <> None /\ Forall2 (rows_ok M) (flatten sp) b.
Proof.
  intros Hs Htd E. cbn [flattened next] in E. destruct (next p fuel s) as [o1 s1] eqn:En.
  destruct (step_p _ _ Hp _ _ _ _ Hs En) as [H1 H2]. destruct (step_p _ _ Hrows _ _ _ _ Hs En) as [_ H3].
  destruct o1 as [[x|]| | |]; cbn [bindn] in E; injection E as <- <-; cbn [fst snd]; spl; auto; try discriminate.
  - intros t Et. destruct td; [now apply Htd|]. injection Et as <-. now apply (H2 _ eq_refl).
  - destruct td; [easy|discriminate].
  - intros b Eb. split; [destruct td; discriminate|]. destruct (sequence _) as [l| |] eqn:Es; try discriminate. injection Eb as ->. apply seq_map in Es.
    specialize (H2 _ eq_refl x eq_refl). specialize (H3 _ eq_refl x eq_refl). apply conf_flatten in H2. unfold has_rows in H3.
    clear - H2 H3 Es. revert b Es H3. induction H2 as [|s o ss os Ho Hos IH]; intros b Es H3; inversion Es as [|? r ? rs Hr Hrs]; subst; [constructor|].
    constructor; [|apply IH; [exact Hrs|intros a Ha; apply H3; now right]]. destruct (rows_of_ok _ _ _ Ho Hr) as (a & -> & Ha). rewrite H3 in Ha by now left. exact Ha.
Qed.

Lemma rloop_ok fuel : forall needed acc s o s', rb_ok s -> 0 <= needed <= B -> acc_ok (B - needed) acc (snd (rb_parent s)) ->
  rebatch_loop true (flattened p) fuel needed acc s = (o, s') ->
  rb_ok s' /\ forall r, o = Yield r -> acc_ok B r (snd (rb_parent s')).
Proof.
  induction fuel as [|fuel IH]; intros needed acc s o s' Hs Hn Ha E; cbn [rebatch_loop] in E.
  - destruct (Z.leb_spec needed 0); injection E as <- <-; (split; [exact Hs|]); [|discriminate]. intros r Er. injection Er as <-. now replace B with (B - needed) by lia.
  - destruct (Z.leb_spec needed 0) as [Hz|Hz]; [injection E as <- <-; (split; [exact Hs|]); intros r Er; injection Er as <-; now replace B with (B - needed) by lia|].
    (* using a batch *)
    assert (Huse : forall b s0 o s', rb_ok s0 -> rb_current s0 = Some b -> acc_ok (B - needed) acc (snd (rb_parent s0)) ->
      match len0 b with
      | Ok n =>
          if n <=? 0 then (Fail ValueError, s0)
          else if rb_idx s0 + needed <=? n then
            rebatch_loop true (flattened p) fuel 0
              (Some (append_rows acc (map (slice_rows (rb_idx s0) (rb_idx s0 + needed)) b)))
              (mkRb (rb_parent s0) (rb_current s0) (rb_idx s0 + needed) (rb_last s0))
          else
            rebatch_loop true (flattened p) fuel (needed - (n - rb_idx s0))
              (Some (append_rows acc (map (slice_rows (rb_idx s0) n) b)))
              (mkRb (rb_parent s0) (rb_current s0) (rb_idx s0 + (n - rb_idx s0)) (rb_last s0))
      | r => (of_res (let! _ := r in Raise IndexError), s0)
      end = (o, s') -> rb_ok s' /\ forall r, o = Yield r -> acc_ok B r (snd (rb_parent s'))).
    { clear E Hs Ha s o s'. intros b s o s' Hs Hc Ha E. pose proof Hs as [H1 H2 H3 H4 H5]. destruct (H3 b Hc) as [Htd Hb].
      destruct b as [|b0 bs] eqn:Eb; cbn [len0 bind of_res] in E; [injection E as <- <-; split; [exact Hs|discriminate]|].
      assert (El : Z.of_nat (length b0) = Z.of_nat M) by (inversion Hb as [|? ? ? ? [Hl _]]; subst; now rewrite Hl). rewrite El in E. rewrite <- Eb in *.
      destruct (Z.leb_spec (Z.of_nat M) 0) as [Hm|Hm]; [injection E as <- <-; split; [exact Hs|discriminate]|].
      assert (Hsl : forall j, rb_idx s <= j <= Z.of_nat M -> Forall2 (rows_ok (Z.to_nat (j - rb_idx s))) (flatten sp) (map (slice_rows (rb_idx s) j) b)).
      { intros j Hj. assert (Hi : 0 <= rb_idx s <= j) by (destruct H5, Hj; split; assumption). destruct Hj as [_ Hj]. clear - Hb Hj Hi. induction Hb; cbn; constructor; auto. apply slice_ok with (n := M); assumption. }
      destruct (Z.leb_spec (rb_idx s + needed) (Z.of_nat M)).
      - eapply IH; [| |  |exact E].
        + constructor; cbn [rb_parent rb_current rb_idx rb_last]; auto; lia.
        + lia.
        + cbn [rb_parent]. replace (B - 0) with ((B - needed) + (rb_idx s + needed - rb_idx s)) by lia. apply append_ok; auto; try lia. apply Hsl. lia.
      - eapply IH; [| |  |exact E].
        + constructor; cbn [rb_parent rb_current rb_idx rb_last]; auto; lia.
        + lia.
        + cbn [rb_parent]. replace (B - (needed - (Z.of_nat M - rb_idx s))) with ((B - needed) + (Z.of_nat M - rb_idx s)) by lia. apply append_ok; auto; try lia. apply Hsl. lia. }
    pose proof Hs as [H1 H2 H3 H4 H5].
    assert (Hfetch : forall (is_first : bool) o s',
      (let last := get_state (flattened p) (rb_parent s) in
        match next (flattened p) fuel (rb_parent s) with
        | (Yield b, s') => 
          let s0 := mkRb s' (Some b) (if is_first then rb_idx s else 0) last in
          match len0 b with
      | Ok n =>
          if n <=? 0 then (Fail ValueError, s0)
          else if rb_idx s0 + needed <=? n then
            rebatch_loop true (flattened p) fuel 0
              (Some (append_rows acc (map (slice_rows (rb_idx s0) (rb_idx s0 + needed)) b)))
              (mkRb (rb_parent s0) (rb_current s0) (rb_idx s0 + needed) (rb_last s0))
          else
            rebatch_loop true (flattened p) fuel (needed - (n - rb_idx s0))
              (Some (append_rows acc (map (slice_rows (rb_idx s0) n) b)))
              (mkRb (rb_parent s0) (rb_current s0) (rb_idx s0 + (n - rb_idx s0)) (rb_last s0))
      | r => (of_res (let! _ := r in Raise IndexError), s0)
      end
        | (Stop, s') =>
            let s1 := mkRb s' (rb_current s) (rb_idx s) last in
            (Stop, s1)
        | (Fail e, s') => (Fail e, mkRb s' (rb_current s) (rb_idx s) last)
        | (NoFuel, s') => (NoFuel, mkRb s' (rb_current s) (rb_idx s) last)
        end) = (o, s') -> rb_ok s' /\ forall r, o = Yield r -> acc_ok B r (snd (rb_parent s'))).
    { clear E o s'. intros fst_ o s' E. cbv zeta in E. destruct (rb_parent s) as [ps td] eqn:Ep. cbn [fst snd] in *.
      destruct (next (flattened p) fuel (ps, td)) as [o1 s1] eqn:En. destruct (next_flat _ _ _ _ _ H1 H2 En) as (G1 & G2 & G3 & G4).
      assert (Hlast : reach_ck p (get_state (flattened p) (ps, td))) by (cbn; now constructor).
      destruct o1.
      - eapply Huse; [| | |exact E].
        + constructor; cbn [rb_parent rb_current rb_idx rb_last]; auto.
          * intros b Eb. injection Eb as <-. now apply G4.
          * destruct fst_; lia.
        + reflexivity.
        + cbn [rb_parent]. destruct acc as [aa|]; cbn [acc_ok] in *; [|exact Ha]. destruct Ha as [Ha1 Ha2]. split; [now apply G3|exact Ha2].
      - injection E as <- <-. split; [|discriminate]. constructor; cbn [rb_parent rb_current rb_idx rb_last]; auto. intros b Eb. destruct (H3 b Eb). split; auto.
      - injection E as <- <-. split; [|discriminate]. constructor; cbn [rb_parent rb_current rb_idx rb_last]; auto. intros b Eb. destruct (H3 b Eb). split; auto.
      - injection E as <- <-. split; [|discriminate]. constructor; cbn [rb_parent rb_current rb_idx rb_last]; auto. intros b Eb. destruct (H3 b Eb). split; auto. }
    destruct (rb_current s) as [b|] eqn:Ec; [|exact (Hfetch true _ _ E)].
    destruct (len0 b) as [n|e|] eqn:El; [|injection E as <- <-; split; [exact Hs|discriminate]|injection E as <- <-; split; [exact Hs|discriminate]].
    destruct (rb_idx s >=? n); [exact (Hfetch false _ _ E)|]. apply (Huse b s _ _ Hs Ec Ha). rewrite El. rewrite Ec in *. exact E.
Qed.

Lemma always_rebatch it sp' : rebatch_elements np B true p = Ok it -> rebatch_spec B sp = Ok sp' -> always it (present (conforms sp')).
Proof.
  unfold rebatch_elements. destruct (Z.leb_spec B 0); [lia|]. intros E0 Esp. injection E0 as <-.
  assert (Esp' : sp' = tmap (fun x => mkSds (Some B :: tl (s_shape x)) (s_dtype x)) sp).
  { unfold rebatch_spec in Esp. rewrite (map_leaves_tmap (fun x => mkSds (Some B :: tl (s_shape x)) (s_dtype x))) in Esp. now injection Esp as <-. }
  match goal with |- always ?i _ => apply (always_by i rb_ok (fun c => reach_ck p (fst c) /\ 0 <= snd c <= Z.of_nat M)) end; cbn [init next get_state set_state jsonck].
  - constructor; cbn; try discriminate; repeat constructor; lia.
  - intros fuel s o s' Hs E. destruct (rebatch_loop true (flattened p) fuel B None s) as [o1 s1] eqn:El.
    apply rloop_ok in El; [|exact Hs|lia|cbn; lia]. destruct El as [H1 H2]. destruct o1 as [[rows|]| | |]; cbn [bindn] in E; try (injection E as <- <-; split; [exact H1|discriminate]).
    destruct (H2 _ eq_refl) as [Htd Hr]. match type of E with match ?m with _ => _ end = _ => destruct m as [td|] eqn:Etd end; [|injection E as <- <-; split; [exact H1|discriminate]].
    injection E as <- <-. split; [exact H1|]. intros a Ea x ->. destruct (sequence _) as [ls| |] eqn:Es; cbn [bind of_res] in Ea; try discriminate.
    destruct (unflatten_as td ls) as [t| |] eqn:Eu; cbn [bind of_res] in Ea; try discriminate. injection Ea as <-. subst sp'.
    assert (Hc : conforms sp td) by now apply (rb_td _ H1).
    eapply unflatten_conf; [exact Hc| |exact Eu]. apply seq_map in Es. apply conf_flatten in Hc.
    clear - Es Hc Hr HB np_same. revert rows ls Es Hr. induction Hc as [|s o ss os Ho Hos IH]; intros rows ls Es Hr; inversion Hr as [|? r ? rs Hr1 Hr2]; subst; cbn [combine] in Es; inversion Es as [|? l ? ls' Hl Hls]; subst; cbn [map]; constructor.
    + cbn [fst snd] in Hl. apply of_rows_ok with (n := Z.to_nat B) (s := s) in Hl; [|lia|exact Hr1]. now rewrite Z2Nat.id in Hl by lia.
    + eapply IH; eauto.
  - intros s [H1 H2 H3 H4 H5]. cbn. auto.
  - intros [c i] [H1 H2]. cbn in *. split; [now constructor|exact H2].
  - intros fuel [[ps td0] cur idx last] [c i] s' Hs [Hc Hi] E. cbn [fst snd rb_parent] in *. apply bind_ok in E. destruct E as ([s1 td] & E & E'). injection E' as <-. cbn [flattened set_state] in E.
    destruct Hs as [H1 H2 H3 H4 H5]. cbn [fst snd rb_parent] in *. apply bind_ok in E. destruct E as (s2 & E & E'). injection E' as <- <-.
    assert (reach p s2) by (eapply reach_set; eauto). constructor; cbn; auto; [discriminate|now constructor].
Qed.
End It.
End Rebatch.

(** ** Pipelines *)

Section IpipeInd.
Context {D V : Type} (P : ipipe D V -> Prop).
Hypothesis Huser : forall it sp, P (IUser it sp).
Hypothesis Hpre : forall thr an nt bs p, P (IPrefetch thr an nt bs p).
Hypothesis Hmap : forall f os p, P p -> P (IMap f os p).
Hypothesis Hmapi : forall f os p, P p -> P (IMapWithIndex f os p).
Hypothesis Hmapr : forall f rng pi pc os p, P p -> P (IRandomMap f rng pi pc os p).
Hypothesis Hfilter : forall thr f p, P p -> P (IFilter thr f p).
Hypothesis Hbatch : forall n d b p, P p -> P (IBatch n d b p).
Hypothesis Hrebatch : forall n d p, P p -> P (IRebatch n d p).
Hypothesis Hlimit : forall n p, P p -> P (ILimit n p).
Hypothesis Hrepeat : forall n p, P p -> P (IRepeat n p).
Hypothesis Hws : forall w s p, P p -> P (IWindowShuffle w s p).
Hypothesis Hcache : forall p, P p -> P (ICache p).
Hypothesis Hmix : forall props ps, Forall P ps -> P (IMix props ps).
Hypothesis Hzip : forall strict ps, Forall P ps -> P (IZip strict ps).
Hypothesis Hinter : forall ps c k t, Forall P ps -> P (IInterleave ps c k t).
Hypothesis Hflat : forall f p, P p -> P (IFlatMap f p).
Fixpoint ipipe_induct (p : ipipe D V) : P p :=
  let go := fix go (l : list (ipipe D V)) : Forall P l := match l with [] => Forall_nil _ | x :: l => Forall_cons _ (ipipe_induct x) (go l) end in
  match p with
  | IUser it sp => Huser it sp
  | IPrefetch thr an nt bs p => Hpre thr an nt bs p
  | IMap f os p => Hmap f os p (ipipe_induct p)
  | IMapWithIndex f os p => Hmapi f os p (ipipe_induct p)
  | IRandomMap f rng pi pc os p => Hmapr f rng pi pc os p (ipipe_induct p)
  | IFilter thr f p => Hfilter thr f p (ipipe_induct p)
  | IBatch n d b p => Hbatch n d b p (ipipe_induct p)
  | IRebatch n d p => Hrebatch n d p (ipipe_induct p)
  | ILimit n p => Hlimit n p (ipipe_induct p)
  | IRepeat n p => Hrepeat n p (ipipe_induct p)
  | IWindowShuffle w s p => Hws w s p (ipipe_induct p)
  | ICache p => Hcache p (ipipe_induct p)
  | IMix props ps => Hmix props ps (go ps)
  | IZip strict ps => Hzip strict ps (go ps)
  | IInterleave ps c k t => Hinter ps c k t (go ps)
  | IFlatMap f p => Hflat f p (ipipe_induct p)
  end.
End IpipeInd.

Section Good.
Context {D V : Type} (np : numpy D V) (int64 : D) (of_int : Z -> V) (gen_keys : Z -> Z -> list Z).
Hypothesis np_same : forall d ds, ds <> [] -> Forall (eq d) ds -> np_result np ds = d.

Definition igood (p : ipipe D V) : Prop :=
  forall sp it, ispec int64 p = Ok sp -> iright np int64 of_int gen_keys p -> iden np int64 of_int gen_keys p = Ok it ->
  always it (present (conforms sp)).

Lemma idens_all (ps : list (ipipe D V)) its sp : Forall igood ps ->
  (fix go l := match l with [] => True | p :: l => iright np int64 of_int gen_keys p /\ go l end) ps ->
  (forall p q, In p ps -> In q ps -> ispec int64 p = ispec int64 q) ->
  sequence (map (iden np int64 of_int gen_keys) ps) = Ok its -> first_spec (map (ispec int64) ps) = Ok sp ->
  forall it, In it its -> always it (present (conforms sp)).
Proof.
  intros IH Hr Heq Ed Es d Hd. apply seq_map in Ed. destruct (F2_in_r _ _ _ _ Ed Hd) as (p & Hp & Ep).
  rewrite Forall_forall in IH. apply (IH p Hp sp d); [| |exact Ep].
  - destruct ps as [|p0 ps]; [easy|]. cbn in Es. rewrite <- Es. apply Heq; [assumption|now left].
  - clear - Hr Hp. induction ps as [|q ps IHp]; [easy|]. destruct Hr as [Hq Hr]. destruct Hp as [->|Hp]; auto.
Qed.

Lemma izip_good strict (ps : list (ipipe D V)) : Forall igood ps -> igood (IZip strict ps).
Proof.
  intros IH sp it Es [Hr Hn] Ed. cbn [ispec] in Es. cbn [iden] in Ed.
  apply bind_ok in Es. destruct Es as (sps & Es & E). injection E as <-.
  apply bind_ok in Ed. destruct Ed as (its & Ed & E). apply bind_ok in E. destruct E as (z & Ez & E). injection E as <-.
  apply seq_map in Es. apply seq_map in Ed.
  assert (H : Forall2 (fun (P : option (elem D V) -> Prop) i => always i P) (map (fun s o => o <> None /\ present (conforms s) o) sps) its).
  { clear Ez z. revert sps its IH Hr Hn Es Ed. induction ps as [|p ps IHp]; intros sps its IH Hr Hn Es Ed; inversion Es; inversion Ed; subst; cbn [map]; constructor.
    - destruct Hr as [Hr _]. inversion IH; subst. intros fuel s a s' Hs E. split.
      + eapply (Hn p); [now left|eassumption|exact Hs|exact E].
      + eapply H2; eauto.
    - inversion IH; subst. destruct Hr as [_ Hr]. apply IHp; auto. intros q i Hq. apply Hn. now right. }
  apply (always_zip strict _ _ _ H) in Ez. eapply always_retype; [exact Ez|]. intros l Hl x Ex. injection Ex as <-. apply tuple_conf.
  clear - Hl. revert l Hl. induction sps as [|s sps IH]; intros l Hl; inversion Hl; subst; constructor; auto.
Qed.

Lemma ipipe_good p : igood p.
Proof.
  induction p using ipipe_induct; try (apply izip_good; assumption); intros spr it' Es Hr Ed; cbn [ispec] in Es; cbn [iden] in Ed; cbn [iright] in Hr; try discriminate.
  - injection Ed as <-. auto.
  - apply bind_ok in Ed. destruct Ed as (d & Ed & E). injection E as <-. apply always_prefetch. eapply mpipe_good; eauto.
  - destruct Hr as [Ho Hr]. apply transform_ok in Es. destruct Es as (o & sp0 & -> & Es & Eo). apply bind_ok in Ed. destruct Ed as (d & Ed & E). injection E as <-.
    eapply always_map; [exact (IHp _ _ Es Hr Ed)|]. intros x y Hx E. eapply Ho; [reflexivity|exact Eo|exact Hx|exact E].
  - destruct Hr as [Ho Hr]. apply transform_ok in Es. destruct Es as (o & sp0 & -> & Es & Eo). apply bind_ok in Ed. destruct Ed as (d & Ed & E). injection E as <-.
    eapply always_map_index; [exact (IHp _ _ Es Hr Ed)|]. intros i x y Hx E. eapply Ho; [reflexivity|exact Eo|exact Hx|cbv beta in *; eauto].
  - destruct Hr as [Ho Hr]. apply transform_ok in Es. destruct Es as (o & sp0 & -> & Es & Eo). apply bind_ok in Ed. destruct Ed as (d & Ed & E). injection E as <-.
    eapply always_random_map; [exact (IHp _ _ Es Hr Ed)|]. intros i x y Hx E. eapply Ho; [reflexivity|exact Eo|exact Hx|cbv beta in *; eauto].
  - apply bind_ok in Ed. destruct Ed as (i & Ed & E). injection E as <-. apply always_filter. eauto.
  - destruct Hr as [Hb Hr]. apply bind_ok in Ed. destruct Ed as (i & Ed & E). apply bind_ok in Es. destruct Es as (sp0 & Es & Eb).
    apply bind_ok in E. destruct E as (i' & E & E'). injection E' as <-.
    eapply always_retype with (P := conforms spr); [|intros a Ha x Ex; injection Ex as <-; exact Ha].
    eapply always_batch; [exact (IHp _ _ Es Hr Ed)|exact E|]. intros vs y Hvs Hne Hle Hd Ey. eapply batch_call_conf; eauto.
  - destruct Hr as (-> & Hr & Hrows). apply bind_ok in Ed. destruct Ed as (i & Ed & E). apply bind_ok in Es. destruct Es as (sp0 & Es & Eb).
    destruct (Hrows i Ed) as [N HN]. assert (0 < n) by (unfold rebatch_elements in E; destruct (Z.leb_spec n 0); [discriminate|assumption]).
    eapply always_rebatch; eauto.
  - apply bind_ok in Ed. destruct Ed as (i & Ed & E). unfold limit_it in E. destruct (_ <=? _); [discriminate|]. injection E as <-. apply always_limit. eauto.
  - apply bind_ok in Ed. destruct Ed as (i & Ed & E). eapply always_repeat; eauto.
  - apply bind_ok in Ed. destruct Ed as (i & Ed & E). injection E as <-. apply always_window_shuffle. eauto.
  - apply bind_ok in Ed. destruct Ed as (i & Ed & E). injection E as <-. apply always_cache. eauto.
  - destruct Hr as [Hr Heq]. apply bind_ok in Ed. destruct Ed as (its & Ed & E). eapply always_mixed; [|exact E]. apply Forall_forall. eapply idens_all; eauto.
  - destruct Hr as [Hr Heq]. apply bind_ok in Ed. destruct Ed as (its & Ed & E). injection E as <-. apply always_interleave. eapply idens_all; eauto.
Qed.
End Good.
