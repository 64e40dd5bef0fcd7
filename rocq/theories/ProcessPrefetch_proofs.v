(** Invariant and measure of the prefetching process. *)
From Verif Require Import Base Iter IterSpec ListFacts IterLaw ThreadPrefetch ThreadPrefetchSpec ProcessPrefetch.

Local Arguments Nat.ltb : simpl never.
Local Arguments Nat.leb : simpl never.
Local Arguments Nat.eqb : simpl never.

Local Ltac spl := repeat match goal with |- _ /\ _ => split end.

Section Process.
Context {A : Type}.
Variables (p : Iter A) (l : list A) (fin used json : bool) (N : nat).
Variables (rep : ist p -> nat -> Prop) (crep : ick p -> nat -> Prop).
Hypothesis L : NewLaw p l fin used json N rep crep.
Variables (fuel size : nat) (keep lag : bool).
Hypothesis Hfuel : (N <= fuel)%nat.
Hypothesis Hsize : (1 <= size)%nat.

Local Notation boot := (@Ok unit tt).
Local Notation wstep := (worker_step p fuel size boot).
Local Notation cstep := (pconsumer_step p keep lag).
Local Notation step := (pp_step p fuel size keep boot lag false).

Implicit Types (s : pp p) (b : list (pitem p)) (g : pprog p).

(** ** The buffer: items up to the last marker are stale *)

Definition is_marker (i : pitem p) : bool := match i with Marker => true | _ => false end.
Fixpoint markers b : nat := match b with [] => 0 | i :: b' => (if is_marker i then 1 else 0) + markers b' end.
Fixpoint stale_len b : nat :=
  match b with
  | [] => 0
  | i :: b' => match stale_len b' with O => if is_marker i then 1 else 0 | S n => S (S n) end
  end.
Definition cur b := skipn (stale_len b) b.
Local Arguments cur : simpl never.

Lemma markers_app b b' : markers (b ++ b') = (markers b + markers b')%nat.
Proof. induction b as [|i b IH]; cbn; [easy|]. rewrite IH. lia. Qed.
Lemma stale_le b : (stale_len b <= length b)%nat.
Proof. induction b as [|i b IH]; cbn; [lia|]. destruct (stale_len b); [destruct (is_marker i); lia|lia]. Qed.
Lemma stale_0 b : stale_len b = 0%nat <-> markers b = 0%nat.
Proof.
  induction b as [|i b IH]; cbn; [easy|]. destruct (stale_len b).
  - rewrite (proj1 IH eq_refl). destruct (is_marker i); cbn; lia.
  - split; [lia|]. intros H. assert (markers b = 0%nat) by lia. rewrite <- IH in H0. lia.
Qed.
Lemma stale_snoc b i : is_marker i = false -> stale_len (b ++ [i]) = stale_len b.
Proof. intros Hi. induction b as [|j b IH]; cbn; [now rewrite Hi|]. now rewrite IH. Qed.
Lemma stale_marker b : stale_len (b ++ [Marker]) = S (length b).
Proof. induction b as [|j b IH]; cbn; [easy|]. now rewrite IH. Qed.
Lemma stale_cons i b : (stale_len (i :: b) <> 0)%nat -> stale_len (i :: b) = S (stale_len b).
Proof. cbn. destruct (stale_len b); [|easy]. destruct (is_marker i); easy. Qed.
Lemma cur_snoc b i : is_marker i = false -> cur (b ++ [i]) = cur b ++ [i].
Proof.
  intros Hi. unfold cur. rewrite stale_snoc by easy. rewrite skipn_app.
  pose proof (stale_le b). replace (stale_len b - length b)%nat with 0%nat by lia. reflexivity.
Qed.
Lemma cur_marker b : cur (b ++ [Marker]) = [].
Proof. unfold cur. rewrite stale_marker. apply skipn_all2. rewrite app_length. cbn. lia. Qed.
Lemma cur_stale i b : (stale_len (i :: b) <> 0)%nat -> cur (i :: b) = cur b.
Proof. intros H. unfold cur. rewrite stale_cons by easy. reflexivity. Qed.
Lemma cur_clean b : markers b = 0%nat -> cur b = b.
Proof. intros H. unfold cur. now rewrite (proj2 (stale_0 b) H). Qed.

(** The items are the elements from position [c] on. *)
Fixpoint pelems (c : nat) b : Prop :=
  match b with
  | [] => True
  | PElem a ck :: b' => nth_error l c = Some a /\ crep ck (S c) /\ pelems (S c) b'
  | _ :: _ => False
  end.
Lemma pelems_snoc c b a ck : pelems c b -> nth_error l (c + length b) = Some a -> crep ck (S (c + length b)) ->
  pelems c (b ++ [PElem a ck]).
Proof.
  revert c. induction b as [|[|a' ck'|o] b IH]; intros c; cbn [pelems app length].
  - rewrite Nat.add_0_r. auto.
  - easy.
  - intros (H1 & H2 & H3) Ha Hc. repeat split; auto. apply IH; [easy|now rewrite Nat.add_succ_comm|now rewrite Nat.add_succ_comm].
  - easy.
Qed.

(** ** The invariant *)

Definition okck (n : nat) (ck : ick p) : Prop := exists q, crep ck q /\ (q <= n)%nat /\ (q <= length l)%nat.
Definition wm s : nat := match pp_worker s with Some (WMark _) => 1 | _ => 0 end.

(** Structure: [e] is 1 between the put and the increment in set_state. *)
Definition shape (n e : nat) s : Prop :=
  (length (pp_buffer s) <= size)%nat /\
  length (pp_reqs s) = (pp_count s + e)%nat /\
  (pp_skip s + e = markers (pp_buffer s) + wm s + length (pp_reqs s))%nat /\
  Forall (okck n) (pp_reqs s) /\
  match pp_worker s with
  | None => pp_buffer s = []
  | Some w =>
      pp_stop s = false /\ (exists q, (q <= n)%nat /\ rep (pp_parent s) q) /\
      match w with
      | WBoot => pp_buffer s = [] /\ pp_parent s = init p /\ pp_exh s = false
      | WLoop => True
      | WMark ck | WSet ck => okck n ck /\ pp_exh s = false
      | WRead => pp_exh s = false
      | WPut Marker => False
      | WPut (PElem _ _) => pp_exh s = false
      | WPut (PErr o) => o = Stop /\ pp_exh s = false
      | _ => False
      end
  end.

(** A request is only made to a fresh iterator, unless checkpoints can be restored into used ones. *)
Definition early s : Prop :=
  match pp_worker s with
  | None | Some WBoot => True
  | Some WLoop => pp_parent s = init p
  | _ => False
  end.
Definition use s : Prop :=
  used = true \/
  ((length (pp_reqs s) <= 1)%nat /\ (pp_reqs s <> [] -> early s) /\ match pp_worker s with Some (WMark _) | Some (WSet _) => pp_parent s = init p | _ => True end).

(** Contents: the next element to be returned is the one at [c]. *)
Definition upto (n c : nat) s : Prop :=
  match pp_worker s with
  | None => c = 0%nat
  | Some WBoot => c = 0%nat
  | Some (WMark ck) => crep ck c
  | Some (WSet ck) => crep ck c /\ cur (pp_buffer s) = []
  | Some WLoop =>
      if pp_exh s then exists b, cur (pp_buffer s) = b ++ [PErr Stop] /\ fin = true /\ (c + length b = length l)%nat /\ pelems c b
      else rep (pp_parent s) (c + length (cur (pp_buffer s))) /\ pelems c (cur (pp_buffer s)) /\ (c + length (cur (pp_buffer s)) <= n)%nat
  | Some WRead => rep (pp_parent s) (c + length (cur (pp_buffer s))) /\ pelems c (cur (pp_buffer s)) /\ (c + length (cur (pp_buffer s)) <= n)%nat
  | Some (WPut (PElem a ck)) =>
      rep (pp_parent s) (S (c + length (cur (pp_buffer s)))) /\ pelems c (cur (pp_buffer s)) /\
      (S (c + length (cur (pp_buffer s))) <= n)%nat /\
      nth_error l (c + length (cur (pp_buffer s))) = Some a /\ crep ck (S (c + length (cur (pp_buffer s))))
  | Some (WPut (PErr o)) => fin = true /\ (c + length (cur (pp_buffer s)) = length l)%nat /\ pelems c (cur (pp_buffer s))
  | _ => False
  end.
Definition content (n c : nat) s : Prop :=
  (c <= n)%nat /\ (c <= length l)%nat /\
  (pp_reqs s <> [] -> exists r ck, pp_reqs s = r ++ [ck] /\ crep ck c) /\
  (pp_reqs s = [] -> upto n c s).

Definition state_at (c : nat) s : Prop := match pp_state s with Some ck => crep ck c | None => c = 0%nat end.

Fixpoint loads (calls : list call) : nat :=
  match calls with [] => 0 | Do (OLoad _ _) :: cs => S (loads cs) | _ :: cs => loads cs end.
Definition room (k : nat) (calls : list call) s : Prop := lag = true -> (length (pp_reqs s) + k + loads calls <= 5)%nat.

Definition pguards (n : nat) (fresh : bool) (calls : list call) (ps : list nat) : Prop :=
  Forall (fun q => q <= n /\ q <= length l)%nat ps /\
  (used = false -> fresh_loads fresh (uses calls) = true) /\
  (json = false -> no_json (uses calls) = true).

Definition stopping_ok (o : out A) (c : nat) s (obs total : list (obs A)) (calls : list call) ps : Prop :=
  o = Stop /\ fin = true /\ c = length l /\ pp_buffer s = [] /\ pp_reqs s = [] /\ pp_count s = 0%nat /\ pp_skip s = 0%nat /\
  pp_exh s = true /\ (exists q, rep (pp_parent s) q) /\ state_at c s /\ obs ++ Got Stop :: cursor l (erase calls) c ps = total.

Definition setting_ok (n : nat) (ck : ick p) s (obs total : list (obs A)) (calls : list call) ps : Prop :=
  (used = true \/ (pp_worker s = None /\ pp_reqs s = [])) /\ pp_state s = Some ck /\
  exists q, crep ck q /\ (q <= n)%nat /\ (q <= length l)%nat /\ obs ++ Loaded :: cursor l (erase calls) q ps = total.

Definition pinv (total : list (obs A)) (n : nat) g : Prop :=
  let s := pq_it g in
  exists c ps fresh, Forall2 crep (pq_cks g) ps /\ pguards n fresh (pq_calls g) ps /\
  match pq_at g with
  | PIdle => shape n 0 s /\ (c <= n)%nat /\ (c <= length l)%nat /\
      (if pp_exhausted s then fin = true /\ c = length l /\ fresh = false /\ pp_reqs s = [] else content n c s) /\
      state_at c s /\ use s /\ (fresh = true -> pp_worker s = None /\ pp_reqs s = []) /\ room 0 (pq_calls g) s /\
      pq_obs g ++ cursor l (erase (pq_calls g)) c ps = total
  | PNext => shape n 0 s /\ (c <= n)%nat /\ content n c s /\ state_at c s /\ use s /\ fresh = false /\ pp_worker s <> None /\
      pp_exhausted s = false /\ room 0 (pq_calls g) s /\
      pq_obs g ++ cursor l (ONext :: erase (pq_calls g)) c ps = total
  | PStopSet o => (c <= n)%nat /\ fresh = false /\ pp_worker s = Some WLoop /\ pp_stop s = false /\ stopping_ok o c s (pq_obs g) total (pq_calls g) ps /\ room 0 (pq_calls g) s
  | PStopClear o | PStopJoin o =>
      (c <= n)%nat /\ fresh = false /\ pp_stop s = true /\ (pp_worker s = Some WLoop \/ pp_worker s = Some WDone) /\
      stopping_ok o c s (pq_obs g) total (pq_calls g) ps /\ room 0 (pq_calls g) s
  | PSetClear ck => fresh = false /\ shape n 0 s /\ setting_ok n ck s (pq_obs g) total (pq_calls g) ps /\ use s /\ room 1 (pq_calls g) s
  | PSetPut ck => fresh = false /\ shape n 0 s /\ setting_ok n ck s (pq_obs g) total (pq_calls g) ps /\ use s /\ room 1 (pq_calls g) s /\
      (lag = false -> pp_reqs s = [])
  | PSetCount => fresh = false /\ (used = true \/ pp_worker s = None) /\ shape n 1 s /\ content n c s /\ state_at c s /\ use s /\ room 0 (pq_calls g) s /\
      pq_obs g ++ Loaded :: cursor l (erase (pq_calls g)) c ps = total
  end.

(** ** The worker *)

Lemma okck_S n ck : okck n ck -> okck (S n) ck.
Proof. intros (q & H1 & H2 & H3). exists q. auto. Qed.
Lemma Forall_okck_S n r : Forall (okck n) r -> Forall (okck (S n)) r.
Proof. apply Forall_impl. apply okck_S. Qed.

Lemma shape_S n e s : shape n e s -> shape (S n) e s.
Proof.
  intros (H1 & H2 & H3 & H4 & H5). unfold shape. spl; auto using Forall_okck_S.
  destruct (pp_worker s) as [w|]; [|easy]. destruct H5 as (H5 & (q & Hq & Hr) & H6). spl; auto.
  - exists q. auto.
  - destruct w; intuition auto using okck_S.
Qed.
Lemma upto_S n c s : upto n c s -> upto (S n) c s.
Proof.
  unfold upto. destruct (pp_worker s) as [w|]; [|easy]. destruct w as [| | | | |i| | |]; try easy.
  - destruct (pp_exh s); [easy|]. intuition lia.
  - intuition lia.
  - destruct i; intuition lia.
Qed.
Lemma content_S n c s : content n c s -> content (S n) c s.
Proof. intros (H1 & H2 & H3 & H4). unfold content. spl; auto using upto_S. Qed.

Lemma pfull_false s : pfull size s = false -> (length (pp_buffer s) < size)%nat.
Proof. unfold pfull. apply Nat.leb_gt. Qed.

(** The checkpoints of requests can be restored. *)
Lemma restore n ck c s : (fin = false -> (S n < length l)%nat) -> crep ck c -> (c <= n)%nat -> (c <= length l)%nat ->
  (exists q, (q <= n)%nat /\ rep (pp_parent s) q) -> (used = true \/ pp_parent s = init p) ->
  exists st, set_state p fuel (pp_parent s) ck = Ok st /\ rep st c.
Proof.
  intros Hn Hck Hc1 Hc2 (q & Hq & Hr) Hu.
  assert (Hlive : live l fin c).
  { unfold live. destruct fin; [lia|]. specialize (Hn eq_refl). left. lia. }
  destruct Hu as [Hu|Hu]; [now apply (new_used L fuel _ q)|]. rewrite Hu. now apply (new_fresh L).
Qed.

Lemma worker_shape n e s s' : (fin = false -> (S n < length l)%nat) -> (e = 0%nat \/ used = true \/ pp_worker s = None) ->
  shape n e s -> use s -> wstep s = Some s' -> shape (S n) e s' /\ use s'.
Proof.
  intros Hn He (H1 & H2 & H3 & H4 & H5) Hu E. unfold worker_step in E.
  destruct (pp_worker s) as [w|] eqn:Ew; [|easy]. destruct H5 as (Hstop & (q & Hq & Hr) & H6).
  rewrite Hstop in E. unfold shape. unfold wm in H3. rewrite Ew in H3. unfold use, early in *. rewrite Ew in Hu.
  destruct w as [| |ck|ck| |i| | |]; try easy.
  - (* WBoot *) injection E as <-. cbn. rewrite ?Hstop. destruct H6 as (Hb & Hp & He'). spl; auto using Forall_okck_S.
    + exists 0%nat. split; [lia|apply (new_init L)].
    + destruct Hu as [Hu|(Hu1 & Hu2 & _)]; auto.
  - (* WLoop *)
    destruct (Nat.ltb 0 (pp_count s)) eqn:Ec.
    + apply Nat.ltb_lt in Ec. destruct (pp_reqs s) as [|ck r] eqn:Er; [easy|]. injection E as <-. cbn. cbn in H2, H3.
      rewrite ?Hstop. inversion H4; subst. unfold wm. cbn. spl; auto using Forall_okck_S, okck_S; try lia.
      * exists q. auto.
      * destruct Hu as [Hu|(Hu1 & Hu2 & _)]; [auto|]. right. specialize (Hu2 ltac:(easy)). cbn in Hu1.
        destruct r; [|cbn in Hu1; lia]. cbn. spl; auto.
    + destruct (pp_exh s) eqn:Ee; [easy|]. injection E as <-. cbn. rewrite ?Hstop. apply Nat.ltb_ge in Ec. unfold wm; cbn.
      spl; auto using Forall_okck_S.
      * exists q. auto.
      * destruct Hu as [Hu|(Hu1 & Hu2 & _)]; [auto|]. destruct He as [He|[He|He]]; [|auto|easy].
        right. spl; auto. intros Hne. destruct (pp_reqs s); [easy|]. cbn in H2. lia.
  - (* WMark *)
    destruct (pfull size s) eqn:Ef; [easy|]. apply pfull_false in Ef. injection E as <-. cbn. rewrite ?Hstop. destruct H6 as [H6 He'].
    rewrite app_length, markers_app. unfold wm. cbn. spl; auto using Forall_okck_S, okck_S; try lia. exists q; auto.
  - (* WSet *)
    destruct H6 as ((c & Hc & Hc1 & Hc2) & He').
    assert (Hu' : used = true \/ pp_parent s = init p) by (destruct Hu as [Hu|(_ & _ & Hu)]; auto).
    destruct (restore n ck c s Hn Hc Hc1 Hc2) as (st & Est & Hr'); [exists q; auto|easy|]. rewrite Est in E.
    injection E as <-. cbn. rewrite ?Hstop. unfold wm. cbn. spl; auto using Forall_okck_S.
    { exists c. auto. }
    destruct Hu as [Hu|(Hu1 & Hu2 & _)]; auto.
  - (* WRead *)
    assert (Hlive : live l fin q).
    { pose proof (new_le L _ _ Hr). unfold live. destruct fin; [lia|]. specialize (Hn eq_refl). left. lia. }
    destruct Hlive as [Hl|[Hl Hf]].
    + destruct (nth_error l q) as [a|] eqn:Ea; [|apply nth_error_None in Ea; lia].
      destruct (new_next L fuel _ q a Hfuel Hr Ea) as (st & En & Hr'). rewrite En in E. injection E as <-.
      cbn. rewrite ?Hstop. unfold wm. cbn. spl; auto using Forall_okck_S.
      { exists (S q). split; [lia|easy]. }
    + rewrite Hl in Hr. destruct (new_stop L fuel _ Hfuel Hf Hr) as (st & En & Hr'). rewrite En in E. injection E as <-.
      cbn. rewrite ?Hstop. unfold wm. cbn. spl; auto using Forall_okck_S.
      { exists (length l). split; [lia|easy]. }
  - (* WPut *)
    destruct (pfull size s) eqn:Ef; [easy|]. apply pfull_false in Ef. injection E as <-. cbn. rewrite ?Hstop.
    rewrite app_length, markers_app. unfold wm. cbn.
    assert (Hm : is_marker i = false) by now destruct i. rewrite Hm. spl; auto using Forall_okck_S; try lia.
    { exists q; auto. }
    destruct Hu as [Hu|(Hu1 & Hu2 & _)]; [auto|]. right. spl; auto. intros Hne. now specialize (Hu2 Hne).
Qed.

Lemma worker_content n e c s s' : (fin = false -> (S n < length l)%nat) ->
  shape n e s -> use s -> content n c s -> wstep s = Some s' -> content (S n) c s'.
Proof.
  intros Hn (H1 & H2 & H3 & H4 & H5) Hu (C1 & C2 & C3 & C4) E. unfold worker_step in E.
  destruct (pp_worker s) as [w|] eqn:Ew; [|easy]. destruct H5 as (Hstop & Hq & H6).
  rewrite Hstop in E. unfold content. unfold upto in C4. rewrite Ew in C4.
  destruct w as [| |ck|ck| |i| | |]; try easy.
  - (* WBoot *) injection E as <-. cbn. spl; auto. intros Hr. specialize (C4 Hr). subst c. destruct H6 as (-> & _). unfold upto. cbn. change (cur []) with (@nil (pitem p)). cbn.
    spl; [apply (new_init L)|easy|lia].
  - (* WLoop *)
    destruct (Nat.ltb 0 (pp_count s)) eqn:Ec.
    + destruct (pp_reqs s) as [|ck r] eqn:Er; [easy|]. injection E as <-. cbn. clear C4.
      destruct (C3 ltac:(easy)) as (r' & ck' & Hr & Hck). spl; auto.
      * intros Hne. destruct r' as [|x r']; cbn in Hr; injection Hr as -> ->; [easy|]. now exists r', ck'.
      * intros ->. destruct r' as [|x r']; cbn in Hr; [injection Hr as ->; exact Hck|]. injection Hr as _ Hr. now destruct r'.
    + destruct (pp_exh s) eqn:Ee; [easy|]. injection E as <-. cbn. spl; auto. intros Hr. specialize (C4 Hr). unfold upto; cbn. destruct C4 as (X1 & X2 & X3). spl; [exact X1|exact X2|apply le_S; exact X3].
  - (* WMark *)
    destruct (pfull size s) eqn:Ef; [easy|]. injection E as <-. cbn. spl; auto. intros Hr. specialize (C4 Hr). unfold upto; cbn.
    split; [easy|apply cur_marker].
  - (* WSet *)
    destruct H6 as ((c' & Hc' & Hc1 & Hc2) & He').
    assert (Hu' : used = true \/ pp_parent s = init p).
    { unfold use in Hu. rewrite Ew in Hu. destruct Hu as [Hu|(_ & _ & Hu)]; auto. }
    destruct (restore n ck c' s Hn Hc' Hc1 Hc2 Hq Hu') as (st & Est & _).
    pose proof E as E'. rewrite Est in E. injection E as <-. cbn. spl; auto. intros Hr. destruct (C4 Hr) as (Hck & Hcur).
    destruct (restore n ck c s Hn Hck C1 C2 Hq Hu') as (st' & Est' & Hr').
    assert (st' = st) by congruence. subst st'. unfold upto; cbn. rewrite Hcur. cbn. rewrite Nat.add_0_r. spl; [easy|easy|lia].
  - (* WRead *)
    destruct (next p fuel (pp_parent s)) as [o st] eqn:En. injection E as <-. cbn. spl; auto. intros Hr.
    destruct (C4 Hr) as (Hrep & Hel & Hle). unfold upto; cbn. set (q := (c + length (cur (pp_buffer s)))%nat) in *.
    assert (Hlive : live l fin q).
    { pose proof (new_le L _ _ Hrep). unfold live. destruct fin; [lia|]. specialize (Hn eq_refl). left. lia. }
    destruct Hlive as [Hl|[Hl Hf]].
    + destruct (nth_error l q) as [a|] eqn:Ea; [|apply nth_error_None in Ea; lia].
      destruct (new_next L fuel _ q a Hfuel Hrep Ea) as (st' & En' & Hr'). rewrite En' in En. injection En as <- <-.
      spl; auto; [lia|now apply (new_get L)].
    + rewrite Hl in Hrep. destruct (new_stop L fuel _ Hfuel Hf Hrep) as (st' & En' & Hr'). rewrite En' in En. injection En as <- <-.
      auto.
  - (* WPut *)
    destruct (pfull size s) eqn:Ef; [easy|]. injection E as <-. cbn. spl; auto. intros Hr. specialize (C4 Hr). unfold upto; cbn.
    destruct i as [|a ck|o]; [easy| |].
    + rewrite H6, cur_snoc by easy. rewrite app_length. cbn. destruct C4 as (Hrep & Hel & Hle & Ha & Hck).
      rewrite Nat.add_1_r, Nat.add_succ_r. spl; [easy|now apply pelems_snoc|lia].
    + rewrite cur_snoc by easy. destruct H6 as (-> & _). destruct C4 as (Hf & Hle & Hel). exists (cur (pp_buffer s)). auto.
Qed.

Lemma worker_some s s' : wstep s = Some s' -> pp_worker s <> None /\ pp_worker s' <> None /\
  pp_exhausted s' = pp_exhausted s /\ pp_state s' = pp_state s /\ (length (pp_reqs s') <= length (pp_reqs s))%nat /\
  (pp_reqs s = [] -> pp_reqs s' = []).
Proof.
  unfold worker_step. intros E. destruct (pp_worker s) as [w|]; [|easy]. destruct w as [| |ck|ck| |i|o| |]; try easy.
  - injection E as <-. cbn. repeat split; easy.
  - destruct (pp_stop s); [injection E as <-; cbn; repeat split; try easy; lia|].
    destruct (Nat.ltb 0 (pp_count s)).
    + destruct (pp_reqs s); [easy|]. injection E as <-. cbn. repeat split; try easy; lia.
    + destruct (pp_exh s); [easy|]. injection E as <-. cbn. repeat split; easy.
  - destruct (pp_stop s); [injection E as <-; cbn; repeat split; easy|].
    destruct (pfull size s); [easy|]. injection E as <-. cbn. repeat split; easy.
  - destruct (set_state p fuel (pp_parent s) ck); injection E as <-; cbn; repeat split; try easy; lia.
  - destruct (next p fuel (pp_parent s)) as [o st]. injection E as <-. cbn. repeat split; easy.
  - destruct (pp_stop s); [injection E as <-; cbn; repeat split; easy|].
    destruct (pfull size s); [easy|]. injection E as <-. cbn. repeat split; easy.
  - destruct (pp_stop s); [injection E as <-; cbn; repeat split; easy|].
    destruct (pfull size s); [easy|]. injection E as <-. cbn. repeat split; easy.
Qed.

Lemma pguards_S n fresh calls ps : pguards n fresh calls ps -> pguards (S n) fresh calls ps.
Proof. intros (H1 & H2). split; [|easy]. eapply Forall_impl; [|exact H1]. cbn. lia. Qed.

Lemma pinv_worker total n g s : (fin = false -> (S n < length l)%nat) -> pinv total n g -> wstep (pq_it g) = Some s ->
  pinv total (S n) (mkPprog (pq_calls g) (pq_cks g) (pq_obs g) (pq_at g) s).
Proof.
  intros Hn (c & ps & fresh & Hcks & HG & H) E. apply pguards_S in HG.
  destruct (worker_some _ _ E) as (Hw & Hw' & Hex & Hst & Hreq & Hreq0).
  exists c, ps, fresh. cbn. split; [easy|]. split; [easy|].
  assert (Hroom : forall k, room k (pq_calls g) (pq_it g) -> room k (pq_calls g) s).
  { unfold room. intros k Hk Hl. specialize (Hk Hl). lia. }
  assert (Hsa : state_at c (pq_it g) -> state_at c s) by (unfold state_at; now rewrite Hst).
  destruct (pq_at g) as [| |o|o|o|ck|ck|].
  - destruct H as (Hsh & Hc1 & Hc2 & Hcon & Hsat & Hu & Hf & Hrm & Htot).
    destruct (worker_shape _ _ _ _ Hn (or_introl eq_refl) Hsh Hu E) as [Hsh' Hu'].
    spl; auto.
    + rewrite Hex. destruct (pp_exhausted (pq_it g)); [spl; try apply Hcon; apply Hreq0, Hcon|]. eapply worker_content; eauto.
    + intros F. now destruct (Hf F).
  - destruct H as (Hsh & Hc1 & Hcon & Hsat & Hu & Hf & _ & Hx & Hrm & Htot).
    destruct (worker_shape _ _ _ _ Hn (or_introl eq_refl) Hsh Hu E) as [Hsh' Hu'].
    spl; auto; [eapply worker_content; eauto|congruence].
  - destruct H as (Hc & Hf & Hwk & Hstop & Hs & Hrm). exfalso. unfold stopping_ok in Hs. unfold worker_step in E.
    rewrite Hwk, Hstop in E. destruct Hs as (_ & _ & _ & _ & _ & Hct & _ & Hexh & _). rewrite Hct, Hexh in E. easy.
  - destruct H as (Hc & Hf & Hstop & Hwk & Hs & Hrm). unfold stopping_ok in *. unfold worker_step in E.
    destruct Hwk as [Hwk|Hwk]; rewrite Hwk in E; [|easy]. rewrite Hstop in E. injection E as <-. destruct Hs as (? & ? & ? & ? & ? & ? & ? & ? & ? & ? & ?). specialize (Hroom 0%nat Hrm). spl; auto; easy.
  - destruct H as (Hc & Hf & Hstop & Hwk & Hs & Hrm). unfold stopping_ok in *. unfold worker_step in E.
    destruct Hwk as [Hwk|Hwk]; rewrite Hwk in E; [|easy]. rewrite Hstop in E. injection E as <-. destruct Hs as (? & ? & ? & ? & ? & ? & ? & ? & ? & ? & ?). specialize (Hroom 0%nat Hrm). spl; auto; easy.
  - destruct H as (Hf & Hsh & Hset & Hu & Hrm).
    destruct (worker_shape _ _ _ _ Hn (or_introl eq_refl) Hsh Hu E) as [Hsh' Hu'].
    spl; auto. destruct Hset as ([Hus|[Hus _]] & Hss & q & Hset); [|easy]. split; [auto|]. split; [congruence|]. exists q. intuition lia.
  - destruct H as (Hf & Hsh & Hset & Hu & Hrm & Hlag).
    destruct (worker_shape _ _ _ _ Hn (or_introl eq_refl) Hsh Hu E) as [Hsh' Hu'].
    spl; auto. destruct Hset as ([Hus|[Hus _]] & Hss & q & Hset); [|easy]. split; [auto|]. split; [congruence|]. exists q. intuition lia.
  - destruct H as (Hf & Huw & Hsh & Hcon & Hsat & Hu & Hrm & Htot).
    destruct (worker_shape _ _ _ _ Hn (or_intror Huw) Hsh Hu E) as [Hsh' Hu'].
    spl; auto; [destruct Huw; auto; contradiction|]. eapply worker_content; eauto.
Qed.

(** ** The consumer *)

Lemma pguards_cons n fresh fresh' call calls ps : pguards n fresh (call :: calls) ps ->
  (used = false -> fresh_loads fresh (uses (call :: calls)) = true -> fresh_loads fresh' (uses calls) = true) ->
  pguards n fresh' calls ps.
Proof.
  intros (G1 & G3 & G4) Hf. unfold pguards. spl; auto.
  intros J. specialize (G4 J). cbn in G4. now apply andb_true_iff in G4 as [_ G4].
Qed.

Lemma shape_start n s : shape n 0 s -> shape n 0 (pstart s) /\ pp_worker (pstart s) <> None.
Proof.
  intros H. unfold pstart. destruct (pp_worker s) as [w|] eqn:Ew; [split; [easy|congruence]|].
  destruct H as (H1 & H2 & H3 & H4 & H5). rewrite Ew in H5. unfold wm in H3. rewrite Ew in H3.
  unfold shape, wm; cbn. spl; auto; try easy. exists 0%nat. split; [lia|apply (new_init L)].
Qed.
Lemma use_start s : use s -> use (pstart s).
Proof.
  unfold use, pstart, early. destruct (pp_worker s) as [w|] eqn:Ew; [now rewrite Ew|].
  cbn. intros [Hu|(Hu & _)]; auto.
Qed.
Lemma content_start n c s : content n c s -> content n c (pstart s).
Proof.
  unfold pstart. destruct (pp_worker s) as [w|] eqn:Ew; [easy|]. intros (C1 & C2 & C3 & C4). unfold content. cbn. spl; auto.
  intros Hr. specialize (C4 Hr). unfold upto in *. rewrite Ew in C4. exact C4.
Qed.
Lemma start_same s : pp_exhausted (pstart s) = pp_exhausted s /\ pp_state (pstart s) = pp_state s /\ pp_reqs (pstart s) = pp_reqs s.
Proof. unfold pstart. now destruct (pp_worker s). Qed.

(** Removing a stale item. *)
Lemma shape_pop n s i b : shape n 0 s -> pp_buffer s = i :: b -> is_marker i = false -> shape n 0 (upd_buffer s b).
Proof.
  intros (H1 & H2 & H3 & H4 & H5) Eb Hi. rewrite Eb in *. cbn in H1, H3. rewrite Hi in H3. unfold shape, wm in *. cbn.
  spl; auto; try lia. destruct (pp_worker s) as [w|]; [|easy]. spl; try easy; try apply H5.
  destruct H5 as (_ & _ & H5). destruct w as [| | | | |[]| | |]; easy.
Qed.

Lemma upto_pop n c s i b : upto n c s -> pp_buffer s = i :: b -> stale_len (i :: b) <> 0%nat -> upto n c (upd_buffer s b).
Proof. intros H Eb Hs. unfold upto in *. cbn. rewrite Eb, (cur_stale _ _ Hs) in H. exact H. Qed.

Lemma upto_skip n c s k : upto n c (upd_skip s k) <-> upto n c s.
Proof. reflexivity. Qed.

Lemma upto_take n c s a ck b : upto n c s -> (pp_worker s <> None) -> pp_buffer s = PElem a ck :: b -> markers b = 0%nat ->
  (match pp_worker s with Some (WMark _) | Some WBoot => False | _ => True end) ->
  nth_error l c = Some a /\ crep ck (S c) /\ upto n (S c) (upd_state (upd_buffer s b) (Some ck)).
Proof.
  intros H Hw Eb Hm Hnm. unfold upto in *. cbn. rewrite Eb in H. rewrite (cur_clean b Hm).
  rewrite cur_clean in H by exact Hm.
  destruct (pp_worker s) as [w|]; [|easy]. destruct w as [| |ck'|ck'| |[|a' ck'|o]| | |]; try easy.
  - destruct (pp_exh s).
    + destruct H as (b' & Hb' & Hf & Hlen & Hel). destruct b' as [|i b']; [easy|]. injection Hb' as <- ->. cbn in Hel, Hlen.
      destruct Hel as (H1 & H2 & H3). spl; auto. exists b'. spl; auto. lia.
    + cbn in H. rewrite Nat.add_succ_r in H. cbn. tauto.
  - cbn in H. rewrite Nat.add_succ_r in H. cbn. tauto.
  - cbn in H. rewrite Nat.add_succ_r in H. cbn. tauto.
  - cbn in H. rewrite Nat.add_succ_r in H. cbn. tauto.
Qed.

Lemma upto_end n c s o b : upto n c s -> pp_worker s <> None -> pp_buffer s = PErr o :: b -> markers b = 0%nat ->
  match pp_worker s with Some (WMark _) | Some WBoot => False | _ => True end ->
  o = Stop /\ b = [] /\ fin = true /\ c = length l /\ pp_worker s = Some WLoop /\ pp_exh s = true.
Proof.
  intros H Hw Eb Hm Hnm. unfold upto in *. rewrite Eb in H. rewrite cur_clean in H by exact Hm.
  destruct (pp_worker s) as [w|]; [|easy]. destruct w as [| |ck'|ck'| |[|a' ck'|o']| | |]; try easy; cbn in H; try tauto.
  destruct (pp_exh s); [|tauto]. destruct H as (b' & Hb' & Hf & Hlen & Hel).
  destruct b' as [|i b']; cbn in Hb'; [|injection Hb' as <- ->; easy]. injection Hb' as -> ->. cbn in Hlen. spl; auto. lia.
Qed.

Lemma shape_clear n k s : shape n 0 s -> shape n 0 (clear_reqs lag k s).
Proof.
  intros (H1 & H2 & H3 & H4 & H5). unfold clear_reqs, shape, wm in *. cbn.
  set (m := if lag then _ else _). assert (Hm : (m <= length (pp_reqs s))%nat) by (unfold m; destruct lag; lia).
  rewrite skipn_length. spl; auto; try lia.
  apply Forall_forall. intros x Hx. apply (proj1 (Forall_forall _ _) H4). rewrite <- (firstn_skipn m (pp_reqs s)). apply in_or_app. auto.
Qed.

Lemma use_clear k s : use s -> use (clear_reqs lag k s).
Proof.
  unfold use, clear_reqs, early. cbn. set (m := if lag then _ else _). intros [Hu|(H1 & H2 & H3)]; [auto|]. right.
  rewrite skipn_length. spl; auto; [lia|]. intros Hne. apply H2. intros H0. rewrite H0 in Hne. now rewrite skipn_nil in Hne.
Qed.

Lemma pinv_consumer total n k g g' : (fin = false -> (S n < length l)%nat) -> pinv total n g -> cstep k g = Some g' -> pinv total (S n) g'.
Proof.
  intros Hn (c & ps & fresh & Hcks & HG & H) E. apply pguards_S in HG. unfold pconsumer_step in E.
  destruct g as [calls cks obs_ at_ s]. cbn in *.
  destruct at_ as [| |o|o|o|ck|ck|].
  - (* PIdle *)
    destruct H as (Hsh & Hc1 & Hc2 & Hcon & Hsat & Hu & Hf & Hrm & Htot). apply shape_S in Hsh.
    destruct calls as [|[o|] calls]; [easy| |].
    2:{ injection E as <-. exists c, ps, false. destruct (shape_start _ _ Hsh) as [Hsh' Hw']. destruct (start_same s) as (Es1 & Es2 & Es3). cbn.
        spl; auto; try easy; try lia.
        - rewrite Es1. destruct (pp_exhausted s); [rewrite Es3; spl; try apply Hcon; easy|]. now apply content_start, content_S.
        - unfold state_at in *. now rewrite Es2.
        - now apply use_start.
        - unfold room in *. rewrite Es3. exact Hrm. }
    destruct o as [| |i j|].
    + destruct (pp_exhausted s) eqn:Ex.
      * injection E as <-. exists c, ps, false. cbn. rewrite Ex. destruct Hcon as (Hfin & -> & Hfr & Hr0).
        spl; auto; try easy; try lia.
        rewrite <- app_assoc. cbn. cbn in Htot.
           assert (En : nth_error l (length l) = None) by (apply nth_error_None; lia). now rewrite En in Htot.
      * injection E as <-. exists c, ps, false. destruct (shape_start _ _ Hsh) as [Hsh' Hw']. destruct (start_same s) as (Es1 & Es2 & Es3). cbn.
        spl; auto; try easy; try lia.
        -- now apply content_start, content_S.
        -- unfold state_at in *. now rewrite Es2.
        -- now apply use_start.
        -- congruence.
        -- unfold room in *. rewrite Es3. exact Hrm.
    + injection E as <-. exists c, (ps ++ [c]), fresh. cbn.
      assert (Hg : crep (pget_state s) c).
      { unfold pget_state. unfold state_at in Hsat. destruct (pp_state s); [easy|]. subst c. apply (new_get L), (new_init L). }
      spl; auto; try easy; try lia.
      * apply Forall2_app; [easy|]. now constructor.
      * destruct HG as (G1 & G2 & G3). unfold pguards. spl; auto.
        -- apply Forall_app. split; [easy|]. constructor; [lia|easy].
      * destruct (pp_exhausted s); [easy|]. exact (content_S _ _ _ Hcon).
      * rewrite <- app_assoc. exact Htot.
    + pose proof (Forall2_nth_None crep cks ps i Hcks) as HN.
      assert (HG' : pguards (S n) false calls ps).
      { apply (pguards_cons _ _ false _ _ _ HG). cbn. intros _ HF. now apply andb_true_iff in HF as [_ HF]. }
      destruct (nth_error cks i) as [ck|] eqn:Ei.
      * destruct (nth_error ps i) as [q|] eqn:Eq; [|now pose proof (proj2 HN eq_refl)].
        pose proof (Forall2_nth_error crep cks ps i ck q Hcks Ei Eq) as Hcq.
        pose proof HG as (G1 & G3 & G4).
        pose proof (proj1 (Forall_forall _ _) G1 q (nth_error_In _ _ Eq)) as [Hq1 Hq2].
        assert (Hck : crep (if j then jsonck p ck else ck) q).
        { destruct j; [|easy]. apply (new_json L); [|easy]. destruct json; [easy|]. now specialize (G4 eq_refl). }
        cbn in Htot. rewrite Eq in Htot. injection E as <-.
        set (ck' := if j then jsonck p ck else ck) in *.
        exists c, ps, false. cbn. spl; auto; try easy.
        -- unfold setting_ok. cbn. spl; auto; [|exists q; auto].
           destruct used eqn:Us; [auto|]. right. specialize (G3 eq_refl). cbn in G3. apply andb_true_iff in G3 as [G3 _]. auto.
        -- unfold room in *. cbn in *. intros Hl. specialize (Hrm Hl). lia.
      * injection E as <-. assert (Eq : nth_error ps i = None) by now apply HN.
        cbn in Htot. rewrite Eq in Htot. exists c, ps, false. cbn. spl; auto; try easy; try lia.
        -- destruct (pp_exhausted s); [easy|]. exact (content_S _ _ _ Hcon).
        -- unfold room in *. cbn in *. intros Hl. specialize (Hrm Hl). lia.
        -- rewrite <- app_assoc. exact Htot.
    + injection E as <-. exists 0%nat, ps, true. cbn. spl; auto; try easy; try lia.
      * unfold shape, wm; cbn. spl; auto; try lia; easy.
      * unfold content, upto; cbn. spl; auto; try lia; easy.
      * unfold use. cbn. right. spl; auto; easy.
      * unfold room in *. cbn in *. intros Hl. specialize (Hrm Hl). lia.
      * rewrite <- app_assoc. exact Htot.
  - (* PNext *)
    destruct H as (Hsh & Hc1 & Hcon & Hsat & Hu & -> & Hw & Hx & Hrm & Htot).
    pose proof Hsh as (S1 & S2 & S3 & S4 & S5).
    destruct (pp_buffer s) as [|i b] eqn:Eb.
    { exfalso. destruct (pp_worker s) as [[| | | | | | | |]|]; try easy. }
    destruct (is_marker i) eqn:Hi.
    + destruct i; try easy. injection E as <-. exists c, ps, false. cbn. cbn in S1, S3.
      assert (Hst : stale_len (Marker :: b) <> 0%nat) by (cbn; destruct (stale_len b); easy).
      spl; auto; try easy; try lia.
      * unfold shape, wm in *. cbn. spl; auto; try lia; [now apply Forall_okck_S|].
        destruct (pp_worker s) as [w|]; [|easy]. destruct S5 as (S5 & (q & Hq & Hr) & S6). spl; auto; [exists q; auto|].
        destruct w as [| | | | |[]| | |]; try easy; intuition auto using okck_S.
      * destruct Hcon as (C1 & C2 & C3 & C4). unfold content. cbn. spl; auto. intros Hr.
        apply upto_S. exact (upto_pop n c s Marker b (C4 Hr) Eb Hst).
    + destruct (Nat.eqb (pp_skip s) 0) eqn:Ek; cbn [negb] in E.
      2:{ assert (E' : g' = mkPprog calls cks obs_ PNext (upd_buffer s b)) by (destruct i; try easy; now injection E as <-).
          subst g'. clear E. apply Nat.eqb_neq in Ek.
          exists c, ps, false. cbn. spl; auto; try easy; try lia.
          - apply shape_S. now apply (shape_pop n s i b).
          - destruct Hcon as (C1 & C2 & C3 & C4). unfold content. cbn. spl; auto. intros Hr. specialize (C4 Hr). apply upto_S.
            destruct (pp_worker s) as [w|] eqn:Ew; [|easy].
            destruct w as [| |ck0| | | | | |];
              try (apply (upto_pop n c s i b C4 Eb); rewrite stale_0; unfold wm in S3; rewrite Ew, Hr in S3; cbn in S3; cbn; lia).
            unfold upto in *. cbn. rewrite Ew in *. exact C4. }
      apply Nat.eqb_eq in Ek. cbn in S1, S3. rewrite Hi in S3.
      assert (Hr0 : pp_reqs s = []) by (destruct (pp_reqs s); [easy|cbn in S3; lia]).
      assert (Hm : markers b = 0%nat) by lia.
      destruct Hcon as (C1 & C2 & C3 & C4). specialize (C4 Hr0).
      assert (Hnm : match pp_worker s with Some (WMark _) | Some WBoot => False | _ => True end).
      { unfold wm in S3. destruct (pp_worker s) as [[| | | | | | | |]|]; try easy; lia. }
      destruct i as [|a ck|o]; [easy| |].
      * destruct (upto_take n c s a ck b C4 Hw Eb Hm Hnm) as (Ha & Hck & Hup). injection E as <-.
        assert (c < length l)%nat by (apply nth_error_Some; now rewrite Ha).
        rewrite Ha in Htot. exists (S c), ps, false. cbn. rewrite Hx. spl; auto; try easy; try lia.
        -- apply shape_S. exact (shape_pop n s _ b Hsh Eb eq_refl).
        -- unfold content. cbn. rewrite Hr0. spl; auto; try lia; [easy|]. intros _. now apply upto_S.
        -- rewrite <- app_assoc. exact Htot.
      * destruct (upto_end n c s o b C4 Hw Eb Hm Hnm) as (-> & -> & Hfin & -> & Hwk & Hexh).
        assert (En : nth_error l (length l) = None) by (apply nth_error_None; lia). rewrite En in Htot.
        rewrite Hwk in S5. destruct S5 as (Hstop & (q & Hq & Hr) & _).
        destruct keep.
        -- injection E as <-. exists (length l), ps, false. cbn. spl; auto; try easy; try lia.
           ++ apply shape_S. exact (shape_pop n s _ [] Hsh Eb eq_refl).
           ++ rewrite <- app_assoc. exact Htot.
        -- injection E as <-. exists (length l), ps, false. cbn. spl; auto; try easy; try lia.
           unfold stopping_ok. cbn. spl; auto; [|exists q; easy]. rewrite Hr0 in S2. cbn in S2. lia.
  - (* PStopSet *)
    destruct H as (Hc & -> & Hw & Hstop & Hs & Hrm). injection E as <-. exists c, ps, false. cbn. spl; auto.
  - (* PStopClear *)
    destruct H as (Hc & -> & Hstop & Hw & Hs & Hrm). injection E as <-. exists c, ps, false. cbn. spl; auto.
    + unfold stopping_ok in *. cbn. destruct Hs as (-> & Hfin & -> & Hb & Hr & Hct & Hsk & Hex & Hq & Hsat & Htot).
      rewrite Hr, Hct, Hsk. cbn. rewrite skipn_nil. spl; auto.
    + unfold room in *. cbn. intros Hl. specialize (Hrm Hl). rewrite skipn_length. lia.
  - (* PStopJoin *)
    destruct H as (Hc & -> & Hstop & Hw & Hs & Hrm). destruct Hw as [Hw|Hw]; rewrite Hw in E; [easy|]. injection E as <-.
    destruct Hs as (-> & Hfin & -> & Hb & Hr & Hct & Hsk & Hex & Hq & Hsat & Htot).
    exists (length l), ps, false. cbn. spl; auto; try easy; try lia.
    + unfold shape, wm. cbn. rewrite Hr, Hct. cbn. spl; auto; try lia.
    + unfold use. cbn. rewrite Hr. right. spl; auto; easy.
    + rewrite <- app_assoc. exact Htot.
  - (* PSetClear *)
    destruct H as (-> & Hsh & Hset & Hu & Hrm). injection E as <-. exists c, ps, false. cbn. spl; auto; try easy.
    + apply shape_S. now apply shape_clear.
    + destruct Hset as (Hus & Hst & q & Hset). unfold setting_ok. cbn. spl; auto.
      * destruct Hus as [Hus|[Hus1 Hus2]]; [auto|]. right. rewrite Hus2, skipn_nil. auto.
      * exists q. intuition lia.
    + now apply use_clear.
    + unfold room in *. cbn. intros Hl. specialize (Hrm Hl). rewrite skipn_length. lia.
    + intros ->. apply skipn_all.
  - (* PSetPut *)
    destruct H as (-> & Hsh & Hset & Hu & Hrm & Hlag). destruct (Nat.leb 5 (length (pp_reqs s))) eqn:E5; [easy|]. injection E as <-.
    destruct Hset as (Hus & Hst & q & Hck & Hq1 & Hq2 & Htot). apply shape_S in Hsh. destruct Hsh as (S1 & S2 & S3 & S4 & S5).
    exists q, ps, false. cbn. spl; auto; try easy.
    + destruct Hus as [Hus|[Hus _]]; auto.
    + unfold shape, wm in *. cbn. rewrite app_length. cbn. spl; auto; try lia.
      apply Forall_app. split; [easy|]. constructor; [|easy]. exists q. auto.
    + unfold content. cbn. spl; auto; try lia; [|now destruct (pp_reqs s)]. intros _. now exists (pp_reqs s), ck.
    + unfold state_at. cbn. now rewrite Hst.
    + unfold use, early in *. cbn. destruct Hus as [Hus|[Hus1 Hus2]]; [auto|]. right. rewrite Hus1, Hus2. cbn. spl; auto.
    + unfold room in *. cbn. intros Hl. specialize (Hrm Hl). rewrite app_length. cbn. lia.
  - (* PSetCount *)
    destruct H as (-> & Huw & Hsh & Hcon & Hsat & Hu & Hrm & Htot). injection E as <-. apply shape_S in Hsh. apply content_S in Hcon.
    destruct Hsh as (S1 & S2 & S3 & S4 & S5). pose proof Hcon as (C1 & C2 & _).
    exists c, ps, false. cbn. spl; auto; try easy.
    + unfold shape, wm in *. cbn. spl; auto; lia.
    + rewrite <- app_assoc. exact Htot.
Qed.

(** ** Every execution ends, and only when all calls have been made *)

Definition pending s : bool := Nat.ltb 0 (pp_count s) || match pp_worker s with Some (WMark _) => true | _ => false end.
(** Items that will be discarded. *)
Definition doomed s : nat := if pending s then length (pp_buffer s) else stale_len (pp_buffer s).
Definition wrank (pend : bool) (w : worker p) : nat :=
  match w with
  | WBoot => 6
  | WLoop => if pend then 5 else 3
  | WMark _ => 30
  | WSet _ => if pend then 24 else 4
  | WRead => if pend then 22 else 2
  | WPut _ => if pend then 20 else 1
  | _ => 0
  end.
Definition ppot s : nat :=
  60 * pp_count s +
  match pp_worker s with
  | None => 0
  | Some w => 4 * (size - length (pp_buffer s)) + 5 * doomed s + wrank (pending s) w
  end.
Definition pat_weight (a : pconsumer p) : nat :=
  match a with
  | PIdle => 0
  | PNext => 10
  | PStopSet _ => 3
  | PStopClear _ => 2
  | PStopJoin _ => 1
  | PSetClear _ => 5 * size + 102
  | PSetPut _ => 5 * size + 101
  | PSetCount => 5 * size + 100
  end.
Definition cost : nat := 20 * size + 200.
Definition pmeasure g : nat := cost * length (pq_calls g) + pat_weight (pq_at g) + ppot (pq_it g).

Lemma doomed_le s : (doomed s <= length (pp_buffer s))%nat.
Proof. unfold doomed. destruct (pending s); [easy|apply stale_le]. Qed.
Lemma wrank_le pend (w : worker p) : (wrank pend w <= 30)%nat.
Proof. destruct w, pend; cbn; lia. Qed.
Lemma ppot_bound s : (length (pp_buffer s) <= size)%nat -> (ppot s <= 60 * pp_count s + 9 * size + 30)%nat.
Proof.
  intros H. unfold ppot. destruct (pp_worker s) as [w|]; [|lia]. pose proof (wrank_le (pending s) w). pose proof (doomed_le s). lia.
Qed.

Lemma pend_count (c : nat) : (0 < c)%nat -> Nat.ltb 0 c = true.
Proof. intros. now apply Nat.ltb_lt. Qed.

Lemma ppot_worker s s' : pp_stop s = false \/ pp_buffer s = [] -> (length (pp_buffer s) <= size)%nat ->
  (forall i, pp_worker s = Some (WPut i) -> is_marker i = false) ->
  (forall w, pp_worker s = Some w -> pp_stop s = true -> w = WLoop) ->
  (match pp_worker s with Some (WSet ck) => exists st, set_state p fuel (pp_parent s) ck = Ok st | Some (WCrash _) => False | _ => True end) ->
  wstep s = Some s' -> (ppot s' < ppot s)%nat.
Proof.
  intros Hstop Hlen Hput Hsw Hset E. unfold worker_step in E. unfold ppot, doomed, pending.
  destruct (pp_worker s) as [w|] eqn:Ew; [|easy].
  assert (Hsf : w <> WLoop -> pp_stop s = false).
  { intros Hw. destruct (pp_stop s) eqn:Es; [|easy]. now rewrite (Hsw w eq_refl eq_refl) in Hw. }
  destruct w as [| |ck|ck| |i|o| |]; try easy.
  - injection E as <-. cbn. destruct (Nat.ltb 0 (pp_count s)); cbn; lia.
  - destruct (pp_stop s) eqn:Es.
    + destruct Hstop as [Hstop|Hstop]; [easy|]. injection E as <-. cbn. rewrite Hstop. cbn.
      destruct (Nat.ltb 0 (pp_count s)); cbn; lia.
    + destruct (Nat.ltb 0 (pp_count s)) eqn:Ec.
      * apply Nat.ltb_lt in Ec. destruct (pp_reqs s); [easy|]. injection E as <-. cbn.
        rewrite orb_true_r. cbn. destruct (pp_count s) as [|m]; [lia|]. cbn [pred]. lia.
      * destruct (pp_exh s); [easy|]. injection E as <-. cbn. rewrite Ec. cbn. lia.
  - rewrite (Hsf ltac:(easy)) in E. destruct (pfull size s) eqn:Ef; [easy|]. apply pfull_false in Ef. injection E as <-. cbn.
    rewrite orb_true_r, orb_false_r, app_length, stale_marker. cbn. destruct (Nat.ltb 0 (pp_count s)); cbn; lia.
  - destruct Hset as (st & Est). rewrite Est in E. injection E as <-. cbn. rewrite !orb_false_r.
    destruct (Nat.ltb 0 (pp_count s)); cbn; lia.
  - destruct (next p fuel _) as [o st]. injection E as <-. cbn. rewrite !orb_false_r. destruct (Nat.ltb 0 (pp_count s)); cbn; lia.
  - rewrite (Hsf ltac:(easy)) in E. destruct (pfull size s) eqn:Ef; [easy|]. apply pfull_false in Ef. injection E as <-. cbn.
    rewrite !orb_false_r, app_length, stale_snoc by (now apply Hput). cbn. destruct (Nat.ltb 0 (pp_count s)); cbn; lia.
Qed.

Lemma shape_worker_measure n e s s' : (fin = false -> (S n < length l)%nat) -> shape n e s -> use s -> wstep s = Some s' -> (ppot s' < ppot s)%nat.
Proof.
  intros Hn (H1 & H2 & H3 & H4 & H5) Hu E. apply ppot_worker; auto.
  - destruct (pp_worker s); [left; apply H5|auto].
  - intros i Hi. rewrite Hi in H5. destruct H5 as (_ & _ & H5). now destruct i.
  - intros w Hw Hs. rewrite Hw in H5. destruct H5 as (H5 & _). congruence.
  - destruct (pp_worker s) as [w|] eqn:Ew; [|easy]. destruct H5 as (_ & Hq & H5). destruct w; try easy.
    destruct H5 as ((q & Hc & Hc1 & Hc2) & _).
    assert (Hu' : used = true \/ pp_parent s = init p).
    { unfold use in Hu. rewrite Ew in Hu. destruct Hu as [Hu|(_ & _ & Hu)]; auto. }
    destruct (restore n _ q s Hn Hc Hc1 Hc2 Hq Hu') as (st & Est & _). now exists st.
Qed.

Lemma stopping_worker_measure o c s s' obs_ total calls ps : pp_stop s = true -> (pp_worker s = Some WLoop \/ pp_worker s = Some WDone) ->
  stopping_ok o c s obs_ total calls ps -> wstep s = Some s' -> (ppot s' < ppot s)%nat.
Proof.
  intros Hs Hw (_ & _ & _ & Hb & _) E. destruct Hw as [Hw|Hw]; [|unfold worker_step in E; now rewrite Hw in E].
  apply ppot_worker; auto.
  - rewrite Hb. cbn. lia.
  - intros i Hi. congruence.
  - intros w Hw' _. congruence.
  - now rewrite Hw.
Qed.

Lemma clear_pot k s : (ppot (clear_reqs lag k s) <= ppot s)%nat.
Proof.
  unfold ppot, clear_reqs, doomed, pending. cbn. set (m := if lag then _ else _).
  destruct (pp_worker s) as [w|]; [|lia].
  pose proof (stale_le (pp_buffer s)) as Hsl.
  assert (Hr : (wrank (Nat.ltb 0 (pp_count s - m) || match w with WMark _ => true | _ => false end) w <=
               wrank (Nat.ltb 0 (pp_count s) || match w with WMark _ => true | _ => false end) w)%nat).
  { destruct (Nat.ltb_spec 0 (pp_count s - m)); destruct (Nat.ltb_spec 0 (pp_count s)); try lia; destruct w; cbn; lia. }
  destruct (Nat.ltb_spec 0 (pp_count s - m)); destruct (Nat.ltb_spec 0 (pp_count s)); cbn [orb] in *; try lia;
    destruct w; cbn [wrank] in *; lia.
Qed.

Lemma pmeasure_consumer total n k g g' : (fin = false -> (S n < length l)%nat) -> pinv total n g -> cstep k g = Some g' ->
  (pmeasure g' < pmeasure g)%nat.
Proof.
  intros Hn HI E.
  destruct HI as (c & ps & fresh & Hcks & HG & H). unfold pconsumer_step in E.
  destruct g as [calls cks obs_ at_ s]. unfold pmeasure. cbn [pq_calls pq_cks pq_obs pq_at pq_it] in *.
  destruct at_ as [| |o|o|o|ck|ck|].
  - destruct H as (Hsh & _). pose proof Hsh as (S1 & _).
    assert (Hcall : forall call calls' cks' obs' at' s', calls = call :: calls' ->
      (pat_weight at' <= 5 * size + 102)%nat -> (ppot s' <= ppot s + 9 * size + 30)%nat ->
      (cost * length (pq_calls (mkPprog calls' cks' obs' at' s')) + pat_weight (pq_at (mkPprog calls' cks' obs' at' s')) +
       ppot (pq_it (mkPprog calls' cks' obs' at' s')) < cost * length calls + 0 + ppot s)%nat).
    { intros call0 calls' cks' obs' at' s' -> Ha Hp. cbn [pq_calls pq_cks pq_obs pq_at pq_it length]. unfold cost. lia. }
    assert (Hstart : (ppot (pstart s) <= ppot s + 9 * size + 30)%nat).
    { destruct (shape_start _ _ Hsh) as [(S1' & _) _]. pose proof (ppot_bound _ S1') as Hb.
      unfold pstart in *. destruct (pp_worker s) eqn:Ew; [lia|]. unfold ppot at 2. rewrite Ew. cbn [pp_count] in Hb. lia. }
    destruct calls as [|[o|] calls]; [easy| |].
    2:{ injection E as <-. eapply Hcall; [reflexivity|cbn; lia|easy]. }
    destruct o as [| |i j|].
    + destruct (pp_exhausted s); injection E as <-; (eapply Hcall; [reflexivity|cbn; lia|]); [lia|easy].
    + injection E as <-. eapply Hcall; [reflexivity|cbn; lia|]. unfold ppot, doomed, pending. cbn. lia.
    + destruct (nth_error cks i); injection E as <-; (eapply Hcall; [reflexivity|cbn; lia|]); [|lia].
      unfold ppot, doomed, pending. cbn. lia.
    + injection E as <-. eapply Hcall; [reflexivity|cbn; lia|]. unfold ppot. cbn. lia.
  - destruct H as (Hsh & Hc1 & Hcon & Hsat & Hu & -> & Hw & Hx & Hrm & Htot).
    pose proof Hsh as (S1 & S2 & S3 & S4 & S5).
    destruct (pp_buffer s) as [|i b] eqn:Eb.
    { exfalso. destruct (pp_worker s) as [[| | | | | | | |]|]; try easy. }
    cbn [length] in S1.
    (* what popping does *)
    assert (Hpop : pending s = true \/ stale_len (i :: b) <> 0%nat ->
      forall k', (ppot (upd_skip (upd_buffer s b) k') < ppot s)%nat).
    { intros Hp k'. unfold ppot, doomed, pending in *. cbn. rewrite Eb. destruct (pp_worker s) as [w|]; [|easy].
      destruct (_ || _); cbn [length]; [lia|]. destruct Hp as [Hp|Hp]; [easy|]. rewrite (stale_cons i b Hp). lia. }
    assert (Hany : (ppot (upd_buffer s b) <= ppot s + 4)%nat).
    { unfold ppot, doomed, pending in *. cbn. rewrite Eb. destruct (pp_worker s) as [w|]; [|easy].
      assert (stale_len b <= stale_len (i :: b))%nat by (cbn; destruct (stale_len b); [destruct (is_marker i); lia|lia]).
      destruct (_ || _); cbn [length]; lia. }
    destruct (is_marker i) eqn:Hi.
    + destruct i; try easy. injection E as <-. cbn [pq_calls pq_at pq_it].
      assert (Hst : stale_len (Marker :: b) <> 0%nat) by (cbn; destruct (stale_len b); easy).
      specialize (Hpop (or_intror Hst) (pred (pp_skip s))). lia.
    + destruct (Nat.eqb (pp_skip s) 0) eqn:Ek; cbn [negb] in E.
      2:{ assert (E' : g' = mkPprog calls cks obs_ PNext (upd_buffer s b)) by (destruct i; try easy; now injection E as <-).
          subst g'. clear E. apply Nat.eqb_neq in Ek. cbn [pq_calls pq_at pq_it].
          assert (Hp : pending s = true \/ stale_len (i :: b) <> 0%nat).
          { unfold pending. unfold wm in S3. destruct (Nat.ltb_spec 0 (pp_count s)); [auto|].
            destruct (pp_worker s) as [[| | | | | | | |]|]; cbn [orb]; auto; right; intros Hz; apply stale_0 in Hz; lia. }
          specialize (Hpop Hp (pp_skip s)).
          change (upd_skip (upd_buffer s b) (pp_skip s)) with (upd_buffer s b) in Hpop. lia. }
      destruct i as [|a ck|o]; [easy| |].
      * injection E as <-. cbn [pq_calls pq_at pq_it pat_weight].
        change (ppot (upd_state (upd_buffer s b) (Some ck))) with (ppot (upd_buffer s b)). lia.
      * assert (Hso : forall o0, (cost * length calls + pat_weight (PStopSet o0) + ppot (upd_buffer s b) <
          cost * length calls + pat_weight PNext + ppot s)%nat) by (intros; cbn [pat_weight]; lia).
        destruct o; try (injection E as <-; apply Hso). destruct keep; injection E as <-; [|apply Hso].
        cbn [pq_calls pq_at pq_it pat_weight]. change (ppot (upd_exhausted (upd_buffer s b) true)) with (ppot (upd_buffer s b)). lia.
  - injection E as <-. cbn [pq_calls pq_at pq_it pat_weight]. unfold ppot, doomed, pending. cbn. lia.
  - destruct H as (_ & _ & _ & _ & (_ & _ & _ & Hb & _) & _).
    injection E as <-. cbn [pq_calls pq_at pq_it pat_weight]. pose proof (clear_pot k (upd_buffer s [])) as Hc.
    replace (upd_buffer s []) with s in * by (unfold upd_buffer; rewrite <- Hb; now destruct s). lia.
  - destruct H as (_ & _ & _ & Hw & (_ & _ & _ & Hb & _) & _). destruct Hw as [Hw|Hw]; rewrite Hw in E; [easy|].
    injection E as <-. cbn [pq_calls pq_at pq_it pat_weight]. unfold ppot. cbn. lia.
  - injection E as <-. cbn [pq_calls pq_at pq_it pat_weight]. pose proof (clear_pot k s). lia.
  - destruct (Nat.leb 5 _); [easy|]. injection E as <-. cbn [pq_calls pq_at pq_it pat_weight]. unfold ppot, doomed, pending. cbn. lia.
  - destruct H as (_ & _ & (S1 & _) & _).
    injection E as <-. cbn [pq_calls pq_at pq_it pat_weight]. unfold ppot, doomed, pending. cbn.
    destruct (pp_worker s) as [w|]; [|lia].
    set (x := Nat.ltb 0 (pp_count s) || match w with WMark _ => true | _ => false end).
    assert (Hr : (wrank true w <= wrank x w + 20)%nat) by (destruct w, x; cbn; lia).
    replace (Nat.ltb 0 (S (pp_count s)) || _) with true by (now rewrite pend_count by lia).
    pose proof (stale_le (pp_buffer s)). destruct x; lia.
Qed.

Lemma pmeasure_step total n g g' : (fin = false -> (S n < length l)%nat) -> pinv total n g -> step g g' -> (pmeasure g' < pmeasure g)%nat.
Proof.
  intros Hn HI [(k & E)|[(s & E & ->)|[Hk _]]]; [now apply (pmeasure_consumer total n k)| |easy].
  unfold pmeasure. cbn [pq_calls pq_at pq_it].
  assert (ppot s < ppot (pq_it g))%nat; [|lia].
  destruct HI as (c & ps & fresh & Hcks & HG & H).
  destruct (pq_at g) as [| |o|o|o|ck|ck|].
  - destruct H as (Hsh & _ & _ & _ & _ & Hu & _). eapply shape_worker_measure; eauto.
  - destruct H as (Hsh & _ & _ & _ & Hu & _). eapply shape_worker_measure; eauto.
  - exfalso. destruct H as (Hc & Hf & Hwk & Hstop & Hs & Hrm). unfold stopping_ok in Hs. unfold worker_step in E.
    rewrite Hwk, Hstop in E. destruct Hs as (_ & _ & _ & _ & _ & Hct & _ & Hexh & _). rewrite Hct, Hexh in E. easy.
  - destruct H as (_ & _ & Hs & Hw & Hso & _). eapply stopping_worker_measure; eauto.
  - destruct H as (_ & _ & Hs & Hw & Hso & _). eapply stopping_worker_measure; eauto.
  - destruct H as (_ & Hsh & _ & Hu & _). eapply shape_worker_measure; eauto.
  - destruct H as (_ & Hsh & _ & Hu & _). eapply shape_worker_measure; eauto.
  - destruct H as (_ & _ & Hsh & _ & _ & Hu & _). eapply shape_worker_measure; eauto.
Qed.

Lemma pprogress total n g : (fin = false -> (S n < length l)%nat) -> pinv total n g -> (forall g', ~ step g g') -> pq_obs g = total.
Proof.
  intros Hn (c & ps & fresh & Hcks & HG & H) Hno.
  assert (HC : forall k, cstep k g = None).
  { intros k. destruct (cstep k g) as [g'|] eqn:E; [|easy]. exfalso. apply (Hno g'). left. now exists k. }
  assert (HP : wstep (pq_it g) = None).
  { destruct (wstep (pq_it g)) as [s|] eqn:E; [|easy].
    exfalso. eapply Hno. right. left. exists s. split; [exact E|reflexivity]. }
  clear Hno. specialize (HC 0%nat). unfold pconsumer_step in HC. unfold worker_step in HP.
  destruct g as [calls cks obs_ at_ s]. cbn [pq_calls pq_cks pq_obs pq_at pq_it] in *.
  destruct at_ as [| |o|o|o|ck|ck|]; try easy.
  - destruct calls as [|[o|] calls]; [|exfalso|easy].
    + destruct H as (_ & _ & _ & _ & _ & _ & _ & _ & H). cbn in H. now rewrite app_nil_r in H.
    + destruct o as [| |i j|]; try easy; [now destruct (pp_exhausted s)|now destruct (nth_error cks i)].
  - exfalso. destruct H as (Hsh & Hc1 & Hcon & Hsat & Hu & -> & Hw & Hx & Hrm & Htot).
    pose proof Hsh as (S1 & S2 & S3 & S4 & S5).
    destruct (pp_buffer s) as [|i b] eqn:Eb.
    2:{ destruct i as [|a ck|o]; [easy| |]; destruct (negb _); try easy. destruct o; try easy. now destruct keep. }
    assert (Hnf : pfull size s = false) by (unfold pfull; rewrite Eb; apply Nat.leb_gt; cbn; lia).
    destruct (pp_worker s) as [w|] eqn:Ew; [|easy]. destruct S5 as (Hstop & Hq & S5).
    destruct w as [| |ck|ck| |i|o| |]; try easy.
    + rewrite Hstop in HP. destruct (Nat.ltb_spec 0 (pp_count s)).
      * destruct (pp_reqs s); [cbn in S2; lia|easy].
      * destruct (pp_exh s) eqn:Ee; [|easy]. destruct Hcon as (_ & _ & _ & C4).
        assert (Hr : pp_reqs s = []) by (destruct (pp_reqs s); [easy|cbn in S2; lia]). specialize (C4 Hr).
        unfold upto in C4. rewrite Ew, Ee, Eb in C4. destruct C4 as (b & Hb & _). now destruct b.
    + now rewrite Hstop, Hnf in HP.
    + now destruct (set_state p fuel (pp_parent s) ck).
    + now destruct (next p fuel (pp_parent s)).
    + now rewrite Hstop, Hnf in HP.
  - exfalso. destruct H as (_ & _ & Hs & Hw & _). destruct Hw as [Hw|Hw]; rewrite Hw in *; [|easy]. now rewrite Hs in HP.
  - exfalso. destruct H as (_ & _ & _ & _ & Hrm & Hlag). destruct (Nat.leb_spec 5 (length (pp_reqs s))); [|easy].
    unfold room in Hrm. destruct lag; [specialize (Hrm eq_refl); lia|]. rewrite (Hlag eq_refl) in H. cbn in H. lia.
Qed.

Lemma pinv_init calls : pguards 0 true calls [] -> (lag = true -> (loads calls <= 5)%nat) ->
  pinv (cursor l (erase calls) 0 []) 0 (pprog_init p calls).
Proof.
  intros HG Hl. exists 0%nat, [], true. cbn. spl; auto; try easy.
  - unfold shape, wm; cbn. spl; auto; try lia; easy.
  - lia.
  - unfold content, upto; cbn. spl; auto; try lia; easy.
  - unfold use. cbn. right. spl; auto; easy.
Qed.

Lemma pinv_prefix total n g : pinv total n g -> exists rest, pq_obs g ++ rest = total.
Proof.
  intros (c & ps & fresh & _ & _ & H).
  destruct (pq_at g) as [| |o|o|o|ck|ck|]; unfold stopping_ok, setting_ok in H; decompose [and ex] H; eauto.
Qed.

Lemma pinv_steps calls n g : pguards 0 true calls [] -> (lag = true -> (loads calls <= 5)%nat) ->
  (fin = false -> (cost * length calls + 2 <= length l)%nat) ->
  nsteps step n (pprog_init p calls) g ->
  pinv (cursor l (erase calls) 0 []) n g /\ (n + pmeasure g <= cost * length calls)%nat.
Proof.
  intros HG Hl Hlen H. remember (pprog_init p calls) as g0 eqn:E0. induction H as [g|n g g' g'' H IH Hst].
  - subst. split; [now apply pinv_init|]. unfold pmeasure, ppot. cbn. lia.
  - destruct (IH E0) as [HI Hm].
    assert (Hn : fin = false -> (S n < length l)%nat) by (intros F; specialize (Hlen F); lia).
    pose proof (pmeasure_step _ _ _ _ Hn HI Hst). split; [|lia].
    destruct Hst as [(k & Hst)|[(s & Hst & ->)|[Hk _]]]; [eapply pinv_consumer; eauto|eapply pinv_worker; eauto|easy].
Qed.

Lemma process_transparent calls : pguards 0 true calls [] -> (lag = true -> (loads calls <= 5)%nat) ->
  (fin = false -> (cost * length calls + 2 <= length l)%nat) ->
  every_schedule step (pprog_init p calls) pq_obs (cursor l (erase calls) 0 []).
Proof.
  intros HG Hl Hlen. split; [|split].
  - exists (cost * length calls)%nat. intros n g H. destruct (pinv_steps _ _ _ HG Hl Hlen H). lia.
  - intros n g H. destruct (pinv_steps _ _ _ HG Hl Hlen H) as [HI _]. now apply pinv_prefix in HI.
  - intros n g H Hno. destruct (pinv_steps _ _ _ HG Hl Hlen H) as [HI Hm]. apply (pprogress _ n); auto.
    intros F. specialize (Hlen F). lia.
Qed.
End Process.
