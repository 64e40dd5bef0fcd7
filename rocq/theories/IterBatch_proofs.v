(** batch and repeat preserve the law. *)
From Verif Require Import Base MapDatasets Spec Iter IterSpec ListFacts IterLaw IterBasic_proofs.

(** ** batch *)
Section Batch.
  Context {A} (p : Iter A) (l : list A) (fin used json : bool).
  Context (N : nat) (rep : ist p -> nat -> Prop) (crep : ick p -> nat -> Prop).
  Context (L : Law p l fin used json N rep crep).

  Lemma batch_values_full drop fuel n : forall q s acc, (N <= fuel)%nat -> rep s q ->
    (q + n <= length l)%nat ->
    exists s', batch_values drop p fuel n acc s = (Yield (acc ++ firstn n (skipn q l)), s') /\
      rep s' (q + n)%nat.
  Proof.
    induction n as [|n IH]; intros q s acc Hf Hr Hq.
    - exists s. cbn. now rewrite app_nil_r, Nat.add_0_r.
    - cbn [batch_values]. destruct (nth_error l q) as [v|] eqn:Ev; [|apply nth_error_None in Ev; lia].
      destruct (law_next L fuel s q v Hf Hr Ev) as (s1 & -> & Hr1).
      destruct (IH (S q) s1 (acc ++ [v]) Hf Hr1 ltac:(lia)) as (s' & -> & Hr').
      exists s'. rewrite (skipn_nth_cons _ _ _ Ev). cbn [firstn]. rewrite <- app_assoc. cbn.
      split; [easy|]. now replace (q + S n)%nat with (S q + n)%nat by lia.
  Qed.

  Lemma batch_values_end drop fuel n : forall q s acc, (N <= fuel)%nat -> rep s q -> fin = true ->
    (length l < q + n)%nat ->
    exists s', batch_values drop p fuel n acc s =
        (if drop then Stop else Yield (acc ++ skipn q l), s') /\ rep s' (length l).
  Proof.
    induction n as [|n IH]; intros q s acc Hf Hr Hfin Hq; pose proof (law_le L _ _ Hr).
    - lia.
    - cbn [batch_values]. destruct (nth_error l q) as [v|] eqn:Ev.
      + destruct (law_next L fuel s q v Hf Hr Ev) as (s1 & -> & Hr1).
        destruct (IH (S q) s1 (acc ++ [v]) Hf Hr1 Hfin ltac:(lia)) as (s' & -> & Hr').
        exists s'. rewrite (skipn_nth_cons _ _ _ Ev), <- app_assoc. easy.
      + apply nth_error_None in Ev. replace q with (length l) in * by lia.
        destruct (law_stop L fuel s Hf Hfin Hr) as (s' & -> & Hr'). exists s'.
        rewrite skipn_all, app_nil_r. now destruct drop.
  Qed.
End Batch.

Lemma chunks_length_nat {A} b (l : list A) : (0 < b)%nat ->
  (length l <= length (chunks b l) * b /\ length (chunks b l) * b < length l + b)%nat.
Proof. intros Hb. pose proof (chunks_length b l Hb). nia. Qed.

Lemma full_chunks_length {A} b (l : list A) : (0 < b)%nat -> length (full_chunks b l) = (length l / b)%nat.
Proof.
  intros Hb. rewrite full_chunks_firstn by easy. rewrite firstn_length.
  pose proof (chunks_length_nat b l Hb). pose proof (Nat.div_mod (length l) b). nia.
Qed.

Lemma full_chunks_nth {A} b (l : list A) j c : (0 < b)%nat -> nth_error (full_chunks b l) j = Some c ->
  (j * b + b <= length l)%nat /\ c = firstn b (skipn (j * b) l).
Proof.
  intros Hb H. pose proof (nth_lt _ _ _ H) as Hj. rewrite full_chunks_length in Hj by easy.
  rewrite full_chunks_firstn in H by easy.
  assert (H' : nth_error (chunks b l) j = Some c).
  { rewrite <- (firstn_skipn (length l / b) (chunks b l)). rewrite nth_error_app1; [easy|].
    eapply nth_lt; eassumption. }
  rewrite chunks_nth in H' by easy. destruct (Nat.ltb_spec (j * b) (length l)); [|easy].
  split; [|congruence]. pose proof (Nat.div_mod (length l) b). nia.
Qed.

(** A batch position [j] and the positions of the parent it may be at. *)
Definition batch_rep {S} (b n n' : nat) (rep : S -> nat -> Prop) (s : S) (j : nat) : Prop :=
  exists q, rep s q /\ (j <= n')%nat /\ (q = j * b \/ (j = n' /\ q = n))%nat.
Definition batch_crep {S} (b n n' : nat) (rep : S -> nat -> Prop) (s : S) (j : nat) : Prop :=
  exists q, rep s q /\ (q <= n)%nat /\ (j <= n')%nat /\ (q = j * b \/ (j = n' /\ q = n))%nat.
Lemma batch_Law {A B} batch_size drop (batch_fn : list A -> res B) p l l' fin used json N rep crep : 0 < batch_size ->
  Forall2 (fun c b => batch_fn c = Ok b)
    (if fin && negb drop then chunks (Z.to_nat batch_size) l else full_chunks (Z.to_nat batch_size) l) l' ->
  Law p l fin used json N rep crep ->
  Law (batch_iter batch_size drop batch_fn p) l' fin used json N
    (batch_rep (Z.to_nat batch_size) (length l) (length l') rep) (batch_crep (Z.to_nat batch_size) (length l) (length l') crep).
Proof.
  intros Hb HF L. unfold batch_iter, batch_rep, batch_crep.
  set (b := Z.to_nat batch_size) in *. assert (Hb' : (0 < b)%nat) by lia. clearbody b.
  set (C := if fin && negb drop then chunks b l else full_chunks b l) in *.
  pose proof (Forall2_length _ _ _ HF) as HC.
  (* what is known about the groups *)
  assert (HlenC : (length C * b <= length l \/ (fin = true /\ drop = false))%nat /\
                  (length l < length C * b + b /\ length C * b < length l + b)%nat /\
                  (fin = true -> drop = false -> length l <= length C * b)%nat).
  { subst C. pose proof (full_chunks_length b l Hb') as E1. pose proof (chunks_length_nat b l Hb') as E2.
    pose proof (Nat.div_mod (length l) b). pose proof (Nat.mod_upper_bound (length l) b).
    destruct fin, drop; cbn [andb negb]; try (rewrite E1); repeat split; try easy; try nia. all: try lia. }
  assert (HnthC : forall j c, nth_error C j = Some c ->
      (j * b + b <= length l /\ c = firstn b (skipn (j * b) l))%nat \/
      (fin = true /\ drop = false /\ j * b < length l < j * b + b /\ c = skipn (j * b) l)%nat).
  { subst C. intros j c Hc. destruct (fin && negb drop) eqn:E.
    - apply andb_true_iff in E as [-> Hd]. apply negb_true_iff in Hd as ->.
      rewrite chunks_nth in Hc by easy. destruct (Nat.ltb_spec (j * b) (length l)); [|easy].
      destruct (Nat.le_gt_cases (j * b + b) (length l)); [left|right].
      + split; [lia|congruence].
      + repeat split; try easy; try lia. injection Hc as <-. apply firstn_all2. rewrite skipn_length. lia.
    - left. now apply full_chunks_nth. }
  assert (Hlive : forall q j, (q <= length l)%nat -> (q = j * b \/ (j = length l' /\ q = length l))%nat ->
            live l' fin j -> live l fin q).
  { intros q j Hq H1 [H|[H F]]; unfold live; [|rewrite F; lia].
    destruct H1 as [->|[-> ->]]; [|lia].
    left. rewrite <- HC in H. destruct (nth_error C j) eqn:E; [|apply nth_error_None in E; lia].
    apply HnthC in E. lia. }
  split; cbn [init next get_state set_state jsonck ist ick].
  - exists 0%nat. split; [apply (law_init L)|]. split; [lia|]. now left.
  - intros s j (q & _ & Hj & _). exact Hj.
  - intros fuel s j x Hf (q & Hr & Hj & Hq) Hx.
    destruct (Forall2_nth _ _ _ _ _ HF Hx) as (c & Hc & Efn).
    pose proof (nth_lt _ _ _ Hx) as Hjl. destruct Hq as [->|[? _]]; [|lia].
    destruct (HnthC _ _ Hc) as [[Hle Ec]|(F & D & Hlt & Ec)].
    + destruct (batch_values_full p l fin used json N rep crep L drop fuel b (j * b) s [] Hf Hr ltac:(lia))
        as (s' & -> & Hr'). cbn [bindn app]. rewrite <- Ec.
      assert (Hne : c <> []).
      { intros ->. assert (length (firstn b (skipn (j * b) l)) = 0%nat) as Z0 by now rewrite <- Ec.
        rewrite firstn_length, skipn_length in Z0. lia. }
      destruct c as [|c0 cs]; [easy|]. rewrite Efn. cbn. exists s'. split; [easy|].
      exists (j * b + b)%nat. split; [easy|]. split; [lia|]. left. lia.
    + destruct (batch_values_end p l fin used json N rep crep L drop fuel b (j * b) s [] Hf Hr F ltac:(lia))
        as (s' & -> & Hr'). rewrite D. cbn [bindn app]. rewrite <- Ec.
      assert (Hne : c <> []).
      { intros ->. assert (length (skipn (j * b) l) = 0%nat) as Z0 by now rewrite <- Ec.
        rewrite skipn_length in Z0. lia. }
      destruct c as [|c0 cs]; [easy|]. rewrite Efn. cbn. exists s'. split; [easy|].
      exists (length l). split; [easy|]. split; [lia|]. right. split; [|easy].
      enough (length C = S j) by lia. clear - HlenC Hlt F D Hb'.
      destruct HlenC as (_ & H1 & H2). specialize (H2 F D). nia.
  - intros fuel s Hf F (q & Hr & _ & Hq). pose proof (law_le L _ _ Hr) as Hql. rewrite <- HC in *.
    destruct (batch_values_end p l fin used json N rep crep L drop fuel b q s [] Hf Hr F) as (s' & E & Hr').
    { destruct HlenC as (_ & H1 & H2). lia. }
    rewrite E. exists s'. split.
    + destruct drop; cbn; [easy|]. 
      destruct HlenC as (_ & H1 & H2). specialize (H2 F eq_refl).
      assert (q = length l) as -> by lia. now rewrite skipn_all.
    + exists (length l). auto.
  - intros s j (q & Hr & Hj & Hq). exists q. split; [now apply (law_get L)|]. split; [apply (law_le L _ _ Hr)|]. auto.
  - intros c j Hj (q & Hc & H). exists q. split; [now apply (law_json L)|easy].
  - intros fuel s j Hf (q & Hr & _) Hv.
    destruct (law_start L fuel s q Hf Hr) as (s' & E & Hr').
    { eapply (Hlive 0%nat 0%nat); [lia|now left|exact Hv]. }
    exists s'. split; [easy|]. exists 0%nat. split; [easy|]. split; [lia|now left].
  - intros fuel c j Hf (q & Hc & Hq & Hj & H) Hv.
    destruct (law_fresh L fuel c q Hf Hc (Hlive q j Hq H Hv)) as (s' & E & Hr'). eauto 7.
  - intros fuel s j1 c j Hf Hu (q1 & Hr & _) (q & Hc & Hq & Hj & H) Hv.
    destruct (law_used L fuel s q1 c q Hf Hu Hr Hc (Hlive q j Hq H Hv)) as (s' & E & Hr'). eauto 7.
Qed.
Lemma lawful_batch {A B} batch_size drop (batch_fn : list A -> res B) p it l l' fin used json :
  batch_it batch_size drop batch_fn p = Ok it ->
  Forall2 (fun c b => batch_fn c = Ok b)
    (if fin && negb drop then chunks (Z.to_nat batch_size) l else full_chunks (Z.to_nat batch_size) l) l' ->
  lawful p l fin used json -> lawful it l' fin used json.
Proof.
  intros Hit HF (N & rep & crep & L). unfold batch_it in Hit.
  destruct (Z.leb_spec batch_size 0) as [|Hb]; [discriminate|].
  match type of Hit with Ok ?X = _ => assert (it = X) as -> by congruence end.
  do 3 eexists. exact (batch_Law batch_size drop batch_fn p l l' fin used json N rep crep Hb HF L).
Qed.

(** ** repeat *)
Lemma concat_repeat_length {A} (l : list A) n : length (concat (List.repeat l n)) = (n * length l)%nat.
Proof. induction n; cbn; [easy|]. rewrite app_length, IHn. lia. Qed.

Lemma concat_repeat_nth {A} (l : list A) n e q : (e < n)%nat -> (q < length l)%nat ->
  nth_error (concat (List.repeat l n)) (e * length l + q) = nth_error l q.
Proof.
  revert e. induction n as [|n IH]; intros e He Hq; [lia|]. cbn [List.repeat concat].
  destruct e as [|e].
  - rewrite nth_error_app1 by (cbn; lia). reflexivity.
  - rewrite nth_error_app2 by lia. rewrite <- (IH e) by lia. f_equal. lia.
Qed.

Section Repeat.
  Context {A} (p : Iter A) (l : list A) (used json : bool).
  Context (N : nat) (rep : ist p -> nat -> Prop) (crep : ick p -> nat -> Prop).
  Context (L : Law p l true used json N rep crep).
  (* the epochs considered: all of them, or the first [n] of an infinite repetition *)
  Context (num : option Z) (n : nat) (Hn : match num with Some k => k = Z.of_nat n | None => True end).

  Lemma repeat_loop_yield d : forall e s q fuel, (e + d = n)%nat -> (1 <= d)%nat -> rep s q ->
    (N + d < fuel)%nat ->
    (e * length l + q < n * length l)%nat ->
    exists s' e' q' a, repeat_loop num p (get_state p (init p)) fuel s (Z.of_nat e) = (Yield a, (s', Z.of_nat e')) /\
      rep s' q' /\ (e' < n)%nat /\ (e' * length l + q' = S (e * length l + q))%nat /\
      nth_error (concat (List.repeat l n)) (e * length l + q) = Some a.
  Proof.
    induction d as [|d IH]; intros e s q fuel Hd Hd1 Hr Hf Hp; [lia|].
    destruct fuel as [|fuel]; [lia|]. cbn [repeat_loop]. pose proof (law_le L _ _ Hr) as Hq.
    destruct (nth_error l q) as [a|] eqn:Ea.
    - destruct (law_next L fuel s q a ltac:(lia) Hr Ea) as (s' & -> & Hr').
      exists s', e, (S q), a. pose proof (nth_lt _ _ _ Ea). repeat split; auto; try lia.
      rewrite concat_repeat_nth by lia. exact Ea.
    - apply nth_error_None in Ea. assert (q = length l) as -> by lia.
      destruct (law_stop L fuel s ltac:(lia) eq_refl Hr) as (s1 & -> & Hr1).
      assert (S e < n)%nat by nia.
      assert (is_last num (Z.of_nat e + 1) = false) as ->.
      { destruct num as [k|]; [|easy]. cbn. apply Z.eqb_neq. lia. }
      destruct (law_start L fuel s1 (length l) ltac:(lia) Hr1 ltac:(unfold live; lia)) as (s2 & -> & Hr2).
      replace (Z.of_nat e + 1) with (Z.of_nat (S e)) by lia.
      destruct (IH (S e) s2 0%nat fuel ltac:(lia) ltac:(lia) Hr2 ltac:(lia) ltac:(nia))
        as (s' & e' & q' & a & E & Hr' & He' & Hpos & Ha).
      exists s', e', q', a. replace (e * length l + length l)%nat with (S e * length l + 0)%nat by lia. auto.
  Qed.

  Lemma repeat_loop_stop d : num = Some (Z.of_nat n) -> forall e s q fuel, (e + d = n)%nat -> (1 <= d)%nat -> rep s q ->
    (N + d < fuel)%nat -> (e * length l + q = n * length l)%nat ->
    exists s', repeat_loop num p (get_state p (init p)) fuel s (Z.of_nat e) = (Stop, (s', Z.of_nat n)) /\
      rep s' (length l).
  Proof.
    intros Hnum. induction d as [|d IH]; intros e s q fuel Hd Hd1 Hr Hf Hp; [lia|].
    destruct fuel as [|fuel]; [lia|]. cbn [repeat_loop]. pose proof (law_le L _ _ Hr) as Hq.
    assert (q = length l) as -> by nia.
    destruct (law_stop L fuel s ltac:(lia) eq_refl Hr) as (s1 & -> & Hr1).
    replace (Z.of_nat e + 1) with (Z.of_nat (S e)) by lia.
    assert (is_last num (Z.of_nat (S e)) = Nat.eqb (S e) n) as ->.
    { rewrite Hnum. unfold is_last. destruct (Nat.eqb_spec (S e) n); lia. }
    destruct (Nat.eqb_spec (S e) n) as [<-|Hne]; [eauto|].
    destruct (law_start L fuel s1 (length l) ltac:(lia) Hr1 ltac:(unfold live; lia)) as (s2 & -> & Hr2).
    apply (IH (S e) s2 0%nat fuel); auto; try lia.
  Qed.
End Repeat.

(** The parent ends: [n] epochs of it; [num_epochs = None]: any finite prefix. *)
Lemma lawful_repeat {A} num_epochs (p : Iter A) it l used json n :
  repeat_it num_epochs p = Ok it ->
  match num_epochs with Some k => k = Z.of_nat n | None => True end ->
  lawful p l true used json ->
  lawful it (concat (List.repeat l n)) (match num_epochs with Some _ => true | None => false end) used json.
Proof.
  intros Hit Hn (N & rep & crep & L). unfold repeat_it in Hit.
  destruct (match num_epochs with None => false | Some k => k <=? 0 end) eqn:Epos; [discriminate|].
  match type of Hit with Ok ?X = _ => assert (it = X) as -> by congruence end. clear Hit.
  set (fin := match num_epochs with Some _ => true | None => false end).
  set (R := concat (List.repeat l n)).
  assert (HR : length R = (n * length l)%nat) by apply concat_repeat_length.
  assert (Hpos : fin = true -> (0 < n)%nat).
  { subst fin. destruct num_epochs; [|easy]. apply Z.leb_gt in Epos. lia. }
  set (ok := fun (e : Z) q j => exists en, e = Z.of_nat en /\
         ((en < n /\ en * length l + q = j)%nat \/
          (en = n /\ j = n * length l /\ (fin = true -> q = length l))%nat)).
  assert (Hok0 : ok 0 0%nat 0%nat).
  { exists 0%nat. split; [easy|]. destruct n as [|n']; [|left; lia]. right. repeat split; try lia. }
  assert (Hokle : forall e q j, (q <= length l)%nat -> ok e q j -> (j <= length R)%nat).
  { intros e q j Hq (en & _ & H). rewrite HR. nia. }
  exists (N + n + 1)%nat,
    (fun s j => exists q, rep (fst s) q /\ ok (snd s) q j),
    (fun c j => exists q, crep (fst c) q /\ (q <= length l)%nat /\ ok (snd c) q j).
  split; cbn [init next get_state set_state jsonck ist ick].
  - exists 0%nat. split; [apply (law_init L)|easy].
  - intros s j (q & Hr & H). eapply Hokle; [apply (law_le L _ _ Hr)|exact H].
  - intros fuel [s e] j a Hf (q & Hr & (en & He & H)) Ha. cbn [fst snd] in *. subst e.
    pose proof (nth_lt _ _ _ Ha) as Hj. rewrite HR in Hj.
    destruct H as [[Hen Hpj]|(-> & -> & _)]; [|lia].
    assert (is_last num_epochs (Z.of_nat en) = false) as ->.
    { destruct num_epochs as [k|]; [|easy]. cbn. apply Z.eqb_neq. lia. }
    destruct (repeat_loop_yield p l used json N rep crep L num_epochs n Hn (n - en) en s q fuel)
      as (s' & e' & q' & a' & E & Hr' & He' & Hp' & Ha'); auto; try lia.
    exists (s', Z.of_nat e'). subst j. fold R in Ha'. rewrite Ha in Ha'. injection Ha' as <-. split; [exact E|].
    exists q'. split; [easy|]. exists e'. split; [easy|]. left. cbn. lia.
  - intros fuel [s e] Hf F (q & Hr & (en & He & H)). cbn [fst snd] in *. subst e. rewrite HR in *.
    assert (Hnum : num_epochs = Some (Z.of_nat n)).
    { subst fin. destruct num_epochs; [now subst|easy]. }
    destruct H as [[Hen Hpj]|(-> & _ & Hq)].
    + assert (is_last num_epochs (Z.of_nat en) = false) as ->.
      { rewrite Hnum. cbn. apply Z.eqb_neq. lia. }
      destruct (repeat_loop_stop p l used json N rep crep L num_epochs n Hn (n - en) Hnum en s q fuel)
        as (s' & E & Hr'); auto; try lia.
      exists (s', Z.of_nat n). split; [exact E|]. exists (length l). split; [easy|].
      exists n. split; [easy|]. right. auto.
    + assert (is_last num_epochs (Z.of_nat n) = true) as ->.
      { rewrite Hnum. cbn. apply Z.eqb_refl. }
      eexists. split; [reflexivity|]. exists q. split; [easy|]. exists n. split; [easy|]. right. auto.
  - intros [s e] j (q & Hr & H). exists q. split; [now apply (law_get L)|]. split; [apply (law_le L _ _ Hr)|easy].
  - intros [c e] j Hj (q & Hc & H). exists q. split; [now apply (law_json L)|easy].
  - intros fuel [s e] j Hf (q & Hr & _) _.
    destruct (law_start L fuel s q ltac:(lia) Hr ltac:(unfold live; lia)) as (s' & E & Hr').
    rewrite E. cbn. eexists. split; [reflexivity|]. exists 0%nat. auto.
  - intros fuel [c e] j Hf (q & Hc & Hq & H) Hv. cbn [fst snd] in *.
    destruct (law_fresh L fuel c q ltac:(lia) Hc ltac:(unfold live; lia)) as (s' & E & Hr').
    rewrite E. cbn. eexists. split; [reflexivity|]. exists q. auto.
  - intros fuel [s e1] j1 [c e] j Hf Hu (q1 & Hr & _) (q & Hc & Hq & H) Hv. cbn [fst snd] in *.
    destruct (law_used L fuel s q1 c q ltac:(lia) Hu Hr Hc ltac:(unfold live; lia)) as (s' & E & Hr').
    rewrite E. cbn. eexists. split; [reflexivity|]. exists q. auto.
Qed.

(** Only a prefix of the parent is known: the first epoch. *)
Lemma lawful_repeat_open {A} num_epochs (p : Iter A) it l used json :
  repeat_it num_epochs p = Ok it ->
  lawful p l false used json -> lawful it l false used json.
Proof.
  intros Hit (N & rep & crep & L). unfold repeat_it in Hit.
  destruct (match num_epochs with None => false | Some k => k <=? 0 end) eqn:Epos; [discriminate|].
  match type of Hit with Ok ?X = _ => assert (it = X) as -> by congruence end. clear Hit.
  assert (E0 : is_last num_epochs 0 = false).
  { destruct num_epochs; [|easy]. unfold is_last. apply Z.leb_gt in Epos. apply Z.eqb_neq. lia. }
  exists (N + 1)%nat, (fun s j => rep (fst s) j /\ snd s = 0), (fun c j => crep (fst c) j /\ snd c = 0).
  split; cbn [init next get_state set_state jsonck ist ick fst snd].
  - split; [apply (law_init L)|easy].
  - intros s j [Hr _]. apply (law_le L _ _ Hr).
  - intros fuel [s e] j a Hf [Hr He] Ha. cbn in Hr, He. subst e. rewrite E0.
    destruct fuel as [|fuel]; [lia|]. cbn [repeat_loop].
    destruct (law_next L fuel s j a ltac:(lia) Hr Ha) as (s' & -> & Hr').
    eexists. split; [reflexivity|]. auto.
  - easy.
  - intros [s e] j [Hr He]. split; [apply (law_get L); easy|easy].
  - intros [c e] j Hj [Hr He]. split; [apply (law_json L); easy|easy].
  - intros fuel [s e] j Hf [Hr He] Hv. cbn in Hr.
    destruct (law_start L fuel s j ltac:(lia) Hr Hv) as (s' & E & Hr').
    rewrite E. cbn. eexists. split; [reflexivity|]. auto.
  - intros fuel [c e] j Hf [Hc He] Hv. cbn in Hc, He.
    destruct (law_fresh L fuel c j ltac:(lia) Hc Hv) as (s' & E & Hr').
    rewrite E. cbn. eexists. split; [reflexivity|]. auto.
  - intros fuel [s e1] q1 [c e] j Hf Hu [Hr _] [Hc He] Hv. cbn in Hr, Hc, He.
    destruct (law_used L fuel s q1 c j ltac:(lia) Hu Hr Hc Hv) as (s' & E & Hr').
    rewrite E. cbn. eexists. split; [reflexivity|]. auto.
Qed.
