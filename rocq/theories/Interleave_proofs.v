(** Interleave refines the round robin of InterleaveSpec.v. *)
From Verif Require Import Base ListFacts MapDatasets Iter IterSpec Interleave InterleaveSpec.

(** ** Lists seen from a position of the cycle *)

Definition rotate {X} (k : nat) (l : list X) : list X := skipn k l ++ firstn k l.
Lemma rotate_perm {X} k (l : list X) : Permutation l (rotate k l).
Proof. unfold rotate. rewrite <- (firstn_skipn k l) at 1. apply Permutation_app_comm. Qed.
Lemma rotate_length {X} k (l : list X) : length (rotate k l) = length l.
Proof. now rewrite <- (Permutation_length (rotate_perm k l)). Qed.
Lemma update_nth_app {X} (a b : list X) x y : update_nth (length a) y (a ++ x :: b) = a ++ y :: b.
Proof. induction a as [|z a IH]; cbn; [easy|]. now rewrite IH. Qed.
Lemma nth_error_split3 {X} (l : list X) k x : nth_error l k = Some x ->
  l = firstn k l ++ x :: skipn (S k) l /\ length (firstn k l) = k.
Proof.
  revert k. induction l as [|y l IH]; intros [|k]; cbn; try easy; [intros E; injection E as ->; easy|].
  intros H. destruct (IH k H) as (E & El). cbn in E. now rewrite <- E, El.
Qed.
Lemma rotate_app {X} (a b : list X) : rotate (length a) (a ++ b) = b ++ a.
Proof. unfold rotate. rewrite skipn_app, firstn_app, Nat.sub_diag, skipn_all, firstn_all. cbn. now rewrite app_nil_r. Qed.
Section Rotate.
Context {X : Type} (l : list X) (k : nat) (x : X) (Hx : nth_error l k = Some x).
Notation pre := (firstn k l). Notation post := (skipn (S k) l).
Lemma rotate_head : rotate k l = x :: post ++ pre.
Proof.
  destruct (nth_error_split3 l k x Hx) as (E & El). transitivity (rotate (length pre) (pre ++ x :: post)); [now rewrite <- E, El|]. now rewrite rotate_app.
Qed.
Lemma update_split y : update_nth k y l = pre ++ y :: post.
Proof.
  destruct (nth_error_split3 l k x Hx) as (E & El). transitivity (update_nth (length pre) y (pre ++ x :: post)); [now rewrite <- E, El|]. apply update_nth_app.
Qed.
Lemma rotate_update y : rotate k (update_nth k y l) = y :: post ++ pre.
Proof.
  destruct (nth_error_split3 l k x Hx) as (E & El). rewrite update_split.
  transitivity (rotate (length pre) (pre ++ y :: post)); [now rewrite El|]. now rewrite rotate_app.
Qed.
Lemma rotate_succ y : rotate ((k + 1) mod length l) (update_nth k y l) = (post ++ pre) ++ [y].
Proof.
  destruct (nth_error_split3 l k x Hx) as (E & El). rewrite update_split.
  assert (Hl : length l = (k + S (length post))%nat) by (rewrite E at 1; rewrite app_length, El; reflexivity).
  destruct (Nat.eq_dec (k + 1) (length l)) as [Hw|Hw].
  - rewrite Hw, Nat.mod_same by lia. assert (Hp : post = []) by (destruct post; [easy|cbn in Hl; lia]). rewrite Hp. unfold rotate. cbn [skipn firstn app]. now rewrite app_nil_r.
  - rewrite Nat.mod_small by lia. transitivity (rotate (length (pre ++ [y])) ((pre ++ [y]) ++ post)).
    + rewrite app_length, El, <- app_assoc. reflexivity.
    + rewrite rotate_app. now rewrite app_assoc.
Qed.
Lemma update_same : update_nth k x l = l.
Proof. destruct (nth_error_split3 l k x Hx) as (E & El). rewrite update_split. symmetry. exact E. Qed.
Lemma rotate_succ_same : rotate ((k + 1) mod length l) l = (post ++ pre) ++ [x].
Proof. rewrite <- (rotate_succ x). now rewrite update_same. Qed.
End Rotate.

Lemma Forall2_nth {X Y} (R : X -> Y -> Prop) l l' : Forall2 R l l' <->
  length l = length l' /\ forall k x y, nth_error l k = Some x -> nth_error l' k = Some y -> R x y.
Proof.
  split.
  - intros H. split; [now apply Forall2_length in H|]. induction H as [|a b l l' Hab H IH]; intros [|k] x y; cbn; try easy; [congruence|apply IH].
  - revert l'. induction l as [|a l IH]; intros [|b l'] (Hl & H); try easy; constructor.
    + now apply (H 0%nat).
    + apply IH. split; [now injection Hl|]. intros k. apply (H (S k)).
Qed.
Lemma Forall2_update {X Y} (R : X -> Y -> Prop) l l' k x y : Forall2 R l l' -> R x y -> Forall2 R (update_nth k x l) (update_nth k y l').
Proof. intros H Hr. revert k. induction H; intros [|k]; cbn; constructor; auto. Qed.

Lemma nth_upd {X} k (a : X) l i : (k < length l)%nat -> nth_error (update_nth k a l) i = if Nat.eqb i k then Some a else nth_error l i.
Proof. intros H. rewrite nth_update_nth. apply Nat.ltb_lt in H. rewrite H. now destruct (Nat.eqb i k). Qed.

(** ** Keys *)
Lemma fd_get_pop {C} j k (f : fdict C) : j <> k -> fd_get (KInt j) (fd_pop (KInt k) f) = fd_get (KInt j) f.
Proof.
  intros Hne. unfold fd_get, fd_pop. induction f as [|[[i|i] c] f IH]; cbn [filter find fst fkey_eqb negb]; [easy| |exact IH].
  destruct (Nat.eqb_spec i k) as [->|Hik]; cbn [negb find fst fkey_eqb].
  - destruct (Nat.eqb_spec k j); [congruence|exact IH].
  - destruct (Nat.eqb_spec i j); [reflexivity|exact IH].
Qed.

Section Proofs.
Context {S C A : Type}.
Variable ds : list (hiter S C A).
Variable cycle_length : nat.
Variable keep : bool.
Variable truthy : C -> bool.
Variable ls : list (list A).
Variables (used json : bool) (N0 : nat).
Variable rep : nat -> S -> nat -> Prop.
Variable crep : nat -> C -> nat -> Prop.
Notation lst d := (nth d ls []).

(** The datasets' iterators keep the contract of IterSpec.v; a state that is false as a
    truth value is a state at the start, and if the iterators can be restored into while used
    there is none. *)
Record family : Prop := {
  f_len : length ls = length ds;
  f_init : forall d h, nth_error ds d = Some h -> rep d (h_init h) 0;
  f_le : forall d s p, rep d s p -> (p <= length (lst d))%nat;
  f_next : forall d h fuel s p a, nth_error ds d = Some h -> (N0 <= fuel)%nat -> rep d s p -> nth_error (lst d) p = Some a ->
    exists s', h_next h fuel s = (Yield a, s') /\ rep d s' (p + 1);
  f_stop : forall d h fuel s, nth_error ds d = Some h -> (N0 <= fuel)%nat -> rep d s (length (lst d)) ->
    exists s', h_next h fuel s = (Stop, s') /\ rep d s' (length (lst d));
  f_get : forall d h s p, nth_error ds d = Some h -> rep d s p -> crep d (h_get h s) p;
  f_json : forall d h c p, nth_error ds d = Some h -> json = true -> crep d c p -> crep d (h_json h c) p;
  f_fresh : forall d h fuel c p, nth_error ds d = Some h -> (N0 <= fuel)%nat -> crep d c p -> (p <= length (lst d))%nat ->
    exists s', h_set h fuel (h_init h) c = Ok s' /\ rep d s' p;
  f_used : forall d h fuel s q c p, nth_error ds d = Some h -> (N0 <= fuel)%nat -> used = true -> rep d s q -> crep d c p ->
    (p <= length (lst d))%nat -> exists s', h_set h fuel s c = Ok s' /\ rep d s' p;
  f_falsy : forall d c p, crep d c p -> truthy c = false -> p = 0%nat;
  f_truthy : forall d c p, used = true -> crep d c p -> truthy c = true;
}.
Hypothesis F : family.
Notation n := (length ds).
Notation cl := (cl ds cycle_length).

(** A slot and the place it stands for. *)
Definition slotR (s : option (nat * S)) (t : option (nat * list A)) : Prop :=
  match s, t with
  | None, None => True
  | Some (d, it), Some (d', l) => d' = d /\ exists h p, nth_error ds d = Some h /\ rep d it p /\ l = skipn p (lst d)
  | _, _ => False
  end.
Definition futR (fut : fdict C) (j : nat) (d : nat * list A) : Prop :=
  fst d = j /\ exists p, snd d = skipn p (lst j) /\ (p <= length (lst j))%nat /\
    match fd_get (KInt j) fut with Some c => crep j c p | None => p = 0%nat end.
Definition pendR (nd : nat) (fut : fdict C) (pend : list (nat * list A)) : Prop := Forall2 (futR fut) (seq nd (n - nd)) pend.
Definition keptR (kept : list (option (nat * (nat * S)))) : Prop :=
  forall k d' d it, nth_error kept k = Some (Some (d', (d, it))) -> d' = d /\ exists h p, nth_error ds d = Some h /\ rep d it p.

(** The state [s] reads like the places [slots] and the datasets [pend]. *)
Record reads (s : il S C) (slots : list (option (nat * list A))) (pend : list (nat * list A)) : Prop := {
  r_its : length (il_its s) = cl;
  r_exh : length (il_exh s) = cl;
  r_kept : length (il_kept s) = cl;
  r_idx : length (il_idx s) = cl;
  r_nc : (il_nc s < cl)%nat;
  r_nd : (il_nd s <= n)%nat;
  r_pf : il_pf s = il_nd s;
  r_slots : Forall2 slotR (il_its s) slots;
  r_pend : pendR (il_nd s) (il_fut s) pend;
  r_same : forall k d it, nth_error (il_its s) k = Some (Some (d, it)) -> nth_error (il_idx s) k = Some d;
  r_keptR : keptR (il_kept s);
}.

(** The exhausted marks agree with the slots: needed for checkpoints only. *)
Definition full (s : il S C) : Prop := forall k, nth_error (il_its s) k = Some None -> exists c, nth_error (il_exh s) k = Some (Some c).
Definition first_round (s : il S C) (m : nat) : Prop :=
  (m < cl)%nat /\ il_nd s = m /\ il_fut s = [] /\
  (il_nc s = m \/ (Datatypes.S (il_nc s) = m /\ exists x, nth_error (il_its s) (il_nc s) = Some (Some x))) /\
  (forall k, (k < m)%nat -> nth_error (il_its s) k = Some None -> exists c, nth_error (il_exh s) k = Some (Some c)) /\
  (forall k, (m <= k < cl)%nat -> nth_error (il_its s) k = Some None /\ nth_error (il_exh s) k = Some None).
(** The datasets in the slots are different ones, and have been started. *)
Definition ids (s : il S C) : Prop := NoDup (il_idx s) /\
  forall k d, nth_error (il_idx s) k = Some d -> (d < il_nd s)%nat \/
    (d = k /\ nth_error (il_its s) k = Some None /\ nth_error (il_exh s) k = Some None /\ (il_nd s <= k)%nat).
Record marks (s : il S C) : Prop := {
  m_ids : ids s;
  m_active : forall k x, nth_error (il_its s) k = Some (Some x) -> nth_error (il_exh s) k = Some None;
  m_filled : full s \/ exists m, first_round s m;
}.

Lemma cl_le : (cl <= n)%nat.
Proof. unfold Interleave.cl. lia. Qed.

(** ** next *)

Lemma reads_slot s slots pend : reads s slots pend -> exists x y, nth_error (il_its s) (il_nc s) = Some x /\
  nth_error slots (il_nc s) = Some y /\ slotR x y /\ length slots = cl.
Proof.
  intros R. pose proof (Forall2_length _ _ _ (r_slots _ _ _ R)) as Hl. rewrite (r_its _ _ _ R) in Hl. pose proof (r_nc _ _ _ R) as Hnc.
  destruct (nth_error (il_its s) (il_nc s)) as [x|] eqn:Ex; [|apply nth_error_None in Ex; rewrite (r_its _ _ _ R) in Ex; lia].
  destruct (nth_error slots (il_nc s)) as [y|] eqn:Ey; [|apply nth_error_None in Ey; lia].
  exists x, y. repeat split; try easy. apply (proj2 (proj1 (Forall2_nth _ _ _) (r_slots _ _ _ R)) _ _ _ Ex Ey).
Qed.
Lemma succ_lt s slots pend : reads s slots pend -> (succ_cycle ds cycle_length (il_nc s) < cl)%nat.
Proof. intros R. unfold succ_cycle. apply Nat.mod_upper_bound. pose proof (r_nc _ _ _ R). lia. Qed.
Lemma skipn_nth_Some {X} p (l : list X) x r : skipn p l = x :: r -> nth_error l p = Some x /\ r = skipn (p + 1) l.
Proof.
  revert l. induction p as [|p IH]; intros [|y l] H; cbn in H; try easy; [injection H as -> ->; easy|]. now apply IH in H.
Qed.
Lemma skipn_nil_inv {X} p (l : list X) : skipn p l = [] -> (length l <= p)%nat.
Proof. intros H. assert (length (skipn p l) = 0%nat) by now rewrite H. rewrite skipn_length in *. lia. Qed.

Ltac lens R := rewrite ?(r_its _ _ _ R), ?(r_exh _ _ _ R), ?(r_idx _ _ _ R), ?(r_kept _ _ _ R); exact (r_nc _ _ _ R).


Lemma step_take fuel0 fuel s slots pend j x l :
  (N0 <= fuel0)%nat -> reads s slots pend -> nth_error slots (il_nc s) = Some (Some (j, x :: l)) ->
  exists s', il_loop ds cycle_length keep fuel0 (Datatypes.S fuel) s = (Yield x, s') /\
    reads s' (update_nth (il_nc s) (Some (j, l)) slots) pend /\ il_nc s' = succ_cycle ds cycle_length (il_nc s) /\ il_fut s' = il_fut s /\ (marks s -> marks s').
Proof.
  intros Hf R Hs. destruct (reads_slot _ _ _ R) as (y & y' & Ey & Ey' & Hslot & Hlen). rewrite Hs in Ey'. injection Ey' as <-.
  destruct y as [[d it]|]; [|easy]. destruct Hslot as (-> & h & p & Eh & Hr & El).
  destruct (skipn_nth_Some _ _ _ _ (eq_sym El)) as (Ex & ->).
  destruct (f_next F d h fuel0 it p x Eh Hf Hr Ex) as (it' & En & Hr').
  eexists. split; [cbn [il_loop]; rewrite Ey, Eh, En; reflexivity|]. split; [|split; [reflexivity|split; [reflexivity|]]].
  - split; cbn [il_its il_exh il_kept il_idx il_nc il_nd il_pf il_fut]; rewrite ?update_nth_length; try apply R.
    + apply (succ_lt _ _ _ R).
    + apply Forall2_update; [apply R|]. split; [easy|]. exists h, (p + 1)%nat. easy.
    + intros k d' it'' Hk. rewrite nth_upd in Hk by lens R. destruct (Nat.eqb_spec k (il_nc s)) as [->|Hne]; [|now apply (r_same _ _ _ R k d' it'')].
      injection Hk as <- <-. now apply (r_same _ _ _ R _ d it).
  - intros M. split.
    + destruct (m_ids _ M) as [I1 I2]. split; [exact I1|]. cbn [il_idx il_its il_exh il_nd]. intros k d' Hk. destruct (I2 k d' Hk) as [H|(-> & Hn & H)]; [now left|right].
      rewrite nth_upd by lens R. destruct (Nat.eqb_spec k (il_nc s)) as [->|Hne]; [rewrite Hn in Ey; easy|]. auto.
    + cbn [il_its il_exh]. intros k z Hk. rewrite nth_upd in Hk by lens R. destruct (Nat.eqb_spec k (il_nc s)) as [->|Hne]; [|now apply (m_active _ M k z)].
      now apply (m_active _ M _ (d, it)).
    + destruct (m_filled _ M) as [Hfull|(m & Hm & Hnd & Hfu & Hnc & Hlow & Hhigh)].
      * left. intros k Hk. cbn [il_its il_exh] in Hk |- *. rewrite nth_upd in Hk by lens R. destruct (Nat.eqb k (il_nc s)) eqn:Ek; [easy|now apply Hfull].
      * right. exists m. destruct Hnc as [Hnc|(Hnc & _)]; [destruct (Hhigh (il_nc s) ltac:(lia)) as (E & _); rewrite E in Ey; easy|].
        unfold first_round; cbn [il_its il_exh il_nd il_nc il_fut]. split; [easy|]. split; [easy|]. split; [easy|]. split; [|split].
        -- left. unfold succ_cycle. rewrite Nat.mod_small; lia.
        -- intros k Hk Hk'. rewrite nth_upd in Hk' by lens R. destruct (Nat.eqb_spec k (il_nc s)) as [->|Hne]; [|now apply Hlow].
           easy.
        -- intros k Hk. rewrite nth_upd by lens R. destruct (Nat.eqb_spec k (il_nc s)) as [->|Hne]; [lia|]. now apply Hhigh.
Qed.

Lemma step_end fuel0 fuel s slots pend j :
  (N0 <= fuel0)%nat -> reads s slots pend -> nth_error slots (il_nc s) = Some (Some (j, [])) ->
  exists s', il_loop ds cycle_length keep fuel0 (Datatypes.S fuel) s = il_loop ds cycle_length keep fuel0 fuel s' /\
    reads s' (update_nth (il_nc s) None slots) pend /\ il_nc s' = succ_cycle ds cycle_length (il_nc s) /\ il_fut s' = il_fut s /\ (marks s -> marks s').
Proof.
  intros Hf R Hs. destruct (reads_slot _ _ _ R) as (y & y' & Ey & Ey' & Hslot & Hlen). rewrite Hs in Ey'. injection Ey' as <-.
  destruct y as [[d it]|]; [|easy]. destruct Hslot as (-> & h & p & Eh & Hr & El).
  pose proof (skipn_nil_inv _ _ (eq_sym El)) as Hp. pose proof (f_le F _ _ _ Hr) as Hp'. assert (p = length (lst d)) as -> by lia.
  destruct (f_stop F d h fuel0 it Eh Hf Hr) as (it' & En & Hr').
  eexists. split; [cbn [il_loop]; rewrite Ey, Eh, En; reflexivity|]. split; [|split; [reflexivity|split; [reflexivity|]]].
  - split; cbn [il_its il_exh il_kept il_idx il_nc il_nd il_pf il_fut]; rewrite ?update_nth_length; try apply R.
    + destruct keep; rewrite ?update_nth_length; apply R.
    + apply (succ_lt _ _ _ R).
    + apply Forall2_update; [apply R|easy].
    + intros k d' it'' Hk. rewrite nth_upd in Hk by lens R. destruct (Nat.eqb_spec k (il_nc s)) as [->|Hne]; [|now apply (r_same _ _ _ R k d' it'')].
      easy.
    + destruct keep; [|apply R]. intros k d1 d2 it2 Hk. rewrite nth_upd in Hk by lens R.
      destruct (Nat.eqb_spec k (il_nc s)) as [->|Hne]; [|now apply (r_keptR _ _ _ R k)].
      injection Hk as <- <- <-.
      split; [|now exists h, (length (lst d))]. pose proof (r_same _ _ _ R _ _ _ Ey) as Hi. now apply nth_error_nth with (d := 0%nat) in Hi.
  - intros M. split.
    + destruct (m_ids _ M) as [I1 I2]. split; [exact I1|]. cbn [il_idx il_its il_exh il_nd]. intros k d' Hk. destruct (I2 k d' Hk) as [H|(-> & Hn & H)]; [now left|right].
      rewrite !nth_upd by lens R. destruct (Nat.eqb_spec k (il_nc s)) as [->|Hne]; [rewrite Hn in Ey; easy|]. auto.
    + cbn [il_its il_exh]. intros k z Hk. rewrite ?nth_upd in Hk by lens R; rewrite ?nth_upd by lens R. destruct (Nat.eqb_spec k (il_nc s)) as [->|Hne]; [|now apply (m_active _ M k z)].
      easy.
    + assert (Hmark : forall k, k = il_nc s -> exists c, nth_error (update_nth (il_nc s) (Some (h_get h it')) (il_exh s)) k = Some (Some c)).
      { intros k ->. rewrite nth_upd by lens R. rewrite Nat.eqb_refl. eauto. }
      destruct (m_filled _ M) as [Hfull|(m & Hm & Hnd & Hfu & Hnc & Hlow & Hhigh)].
      * left. intros k Hk. cbn [il_its il_exh] in *. destruct (Nat.eq_dec k (il_nc s)) as [->|Hne]; [now apply Hmark|].
        rewrite ?nth_upd in Hk by lens R; rewrite ?nth_upd by lens R. destruct (Nat.eqb_spec k (il_nc s)); [easy|now apply Hfull].
      * right. exists m. destruct Hnc as [Hnc|(Hnc & _)]; [destruct (Hhigh (il_nc s) ltac:(lia)) as (E & _); rewrite E in Ey; easy|].
        unfold first_round; cbn [il_its il_exh il_nd il_nc il_fut]. split; [easy|]. split; [easy|]. split; [easy|]. split; [|split].
        -- left. unfold succ_cycle. rewrite Nat.mod_small; lia.
        -- intros k Hk Hk'. destruct (Nat.eq_dec k (il_nc s)) as [->|Hne]; [now apply Hmark|].
           rewrite ?nth_upd in Hk' by lens R; rewrite ?nth_upd by lens R. apply Nat.eqb_neq in Hne. rewrite Hne in *. now apply Hlow.
        -- intros k Hk. rewrite !nth_upd by lens R. destruct (Nat.eqb_spec k (il_nc s)) as [->|Hne]; [lia|]. now apply Hhigh.
Qed.

Lemma step_open fuel0 fuel s slots pend d :
  (N0 <= fuel0)%nat -> reads s slots (d :: pend) -> nth_error slots (il_nc s) = Some None ->
  exists s', il_loop ds cycle_length keep fuel0 (Datatypes.S fuel) s = il_loop ds cycle_length keep fuel0 fuel s' /\
    reads s' (update_nth (il_nc s) (Some d) slots) pend /\ il_nc s' = il_nc s /\ (il_fut s = [] -> il_fut s' = []) /\ (marks s -> marks s').
Proof.
  intros Hf R Hs. destruct (reads_slot _ _ _ R) as (y & y' & Ey & Ey' & Hslot & Hlen). rewrite Hs in Ey'. injection Ey' as <-.
  destruct y as [[? it]|]; [easy|]. pose proof (r_pend _ _ _ R) as Hp. unfold pendR in Hp.
  destruct (n - il_nd s)%nat as [|m] eqn:Em; [inversion Hp|]. cbn [seq] in Hp. inversion Hp as [|? ? ? ? Hd Hp']; subst.
  destruct Hd as (Ed & p & Ed2 & Hple & Hfut). destruct d as [d l]. cbn in Ed, Ed2. subst d l.
  destruct (nth_error ds (il_nd s)) as [h|] eqn:Eh; [|apply nth_error_None in Eh; lia].
  (* the state after opening, with iterator [it] and the future states [fut] *)
  set (s1 := fun it fut => mkIl (il_nc s) (il_nd s + 1) (update_nth (il_nc s) (il_nd s) (il_idx s)) (update_nth (il_nc s) (Some (il_nd s, it)) (il_its s))
                       (update_nth (il_nc s) None (il_exh s)) (il_kept s) fut (il_pf s + 1)%nat (il_started s)).
  assert (Hgo : exists it fut, il_loop ds cycle_length keep fuel0 (Datatypes.S fuel) s = il_loop ds cycle_length keep fuel0 fuel (s1 it fut) /\
    rep (il_nd s) it p /\ (fut = il_fut s \/ fut = fd_pop (KInt (il_nd s)) (il_fut s))).
  { cbn [il_loop]. rewrite Ey. destruct (Nat.ltb_spec (il_nd s) n); [|lia]. unfold make_next. rewrite (r_pf _ _ _ R), Eh.
    destruct (fd_get (KInt (il_nd s)) (il_fut s)) as [c|] eqn:Ec.
    - destruct (f_fresh F _ h fuel0 c p Eh Hf Hfut Hple) as (it' & E & Hr). rewrite Eh, E. exists it', (fd_pop (KInt (il_nd s)) (il_fut s)).
      unfold s1. rewrite (r_pf _ _ _ R). auto.
    - subst p. exists (h_init h), (il_fut s). unfold s1. rewrite (r_pf _ _ _ R). split; [reflexivity|]. split; [now apply (f_init F)|now left]. }
  destruct Hgo as (it & fut & E & Hr & Hfu). exists (s1 it fut). split; [exact E|]. split; [|split; [reflexivity|split]].
  - split; unfold s1; cbn [il_its il_exh il_kept il_idx il_nc il_nd il_pf il_fut]; rewrite ?update_nth_length; try apply R.
    + lia.
    + rewrite (r_pf _ _ _ R). reflexivity.
    + apply Forall2_update; [apply R|]. split; [easy|]. now exists h, p.
    + unfold pendR. replace (n - (il_nd s + 1))%nat with m by lia. replace (il_nd s + 1)%nat with (Datatypes.S (il_nd s)) by lia.
      destruct Hfu as [->| ->]; [exact Hp'|].
      apply Forall2_nth in Hp'. apply Forall2_nth. destruct Hp' as (Hl & Hp'). split; [exact Hl|]. intros k j z Hj Hz.
      specialize (Hp' k j z Hj Hz). unfold futR in *. rewrite fd_get_pop; [exact Hp'|].
      apply nth_error_In in Hj. apply in_seq in Hj. lia.
    + intros k d' it'' Hk. rewrite ?nth_upd in Hk by lens R; rewrite ?nth_upd by lens R. destruct (Nat.eqb_spec k (il_nc s)) as [->|Hne]; [|now apply (r_same _ _ _ R k d' it'')].
      now injection Hk as <- <-.
  - unfold s1. cbn [il_fut]. intros E0. rewrite E0 in Hfu. destruct Hfu; subst; reflexivity.
  - intros M. unfold s1. split.
    + destruct (m_ids _ M) as [I1 I2].
      assert (Hfresh : forall k, nth_error (il_idx s) k = Some (il_nd s) -> k = il_nc s).
      { intros k Hk. destruct (I2 _ _ Hk) as [H|(Ek & H1 & H2 & _)]; [lia|]. destruct (m_filled _ M) as [Hfull|(m' & _ & Hnd & _ & Hnc & _)].
        - destruct (Hfull _ H1) as (c & Hc). congruence.
        - destruct Hnc as [Hnc|(_ & x & Hx)]; [lia|rewrite Ey in Hx; easy]. }
      split; cbn [il_idx il_its il_exh il_nd].
      * apply NoDup_nth_error. intros i j Hi Eij. rewrite update_nth_length in Hi. rewrite !nth_upd in Eij by lens R.
        destruct (Nat.eqb_spec i (il_nc s)) as [->|Hi'], (Nat.eqb_spec j (il_nc s)) as [->|Hj']; try easy.
        -- symmetry in Eij. now rewrite (Hfresh _ Eij).
        -- now rewrite (Hfresh _ Eij).
        -- now apply (proj1 (NoDup_nth_error _) I1).
      * intros k d' Hk. rewrite nth_upd in Hk by lens R. rewrite !nth_upd by lens R. destruct (Nat.eqb_spec k (il_nc s)) as [->|Hne]; [injection Hk as <-; left; lia|].
        destruct (I2 _ _ Hk) as [H|(-> & H1 & H2 & H3)]; [left; lia|]. destruct (Nat.eq_dec k (il_nd s)) as [->|Hne']; [now apply Hfresh in Hk|]. right. repeat split; auto; lia.
    + cbn [il_its il_exh]. intros k z Hk. rewrite ?nth_upd in Hk by lens R; rewrite ?nth_upd by lens R. destruct (Nat.eqb_spec k (il_nc s)) as [->|Hne]; [|now apply (m_active _ M k z)].
      easy.
    + assert (Hone : forall k, k = il_nc s -> nth_error (update_nth (il_nc s) (Some (il_nd s, it)) (il_its s)) k = Some (Some (il_nd s, it))).
      { intros k ->. rewrite nth_upd by lens R. now rewrite Nat.eqb_refl. }
      destruct (m_filled _ M) as [Hfull|(m' & Hm & Hnd & Hfut0 & Hnc & Hlow & Hhigh)].
      * left. intros k Hk. cbn [il_its il_exh] in *. destruct (Nat.eq_dec k (il_nc s)) as [->|Hne]; [rewrite Hone in Hk; easy|].
        rewrite ?nth_upd in Hk by lens R; rewrite ?nth_upd by lens R. apply Nat.eqb_neq in Hne; rewrite Hne in *; now apply Hfull.
      * destruct Hnc as [Hnc|(_ & x & Hx)]; [|rewrite Ey in Hx; easy].
        destruct (Nat.eq_dec (m' + 1) cl) as [Hcl|Hcl].
        -- left. intros k Hk. cbn [il_its il_exh] in *. destruct (Nat.eq_dec k (il_nc s)) as [->|Hne]; [rewrite Hone in Hk; easy|].
           rewrite ?nth_upd in Hk by lens R; rewrite ?nth_upd by lens R. apply Nat.eqb_neq in Hne; rewrite Hne in *; apply Nat.eqb_neq in Hne.
           apply Hlow; [|exact Hk]. assert (k < length (il_its s))%nat by (apply nth_error_Some; now rewrite Hk). rewrite (r_its _ _ _ R) in *. lia.
        -- right. exists (m' + 1)%nat. unfold first_round; cbn [il_its il_exh il_nd il_nc il_fut]. split; [lia|]. split; [lia|]. split; [|split; [|split]].
           ++ destruct Hfu as [->| ->]; rewrite Hfut0; reflexivity.
           ++ right. split; [lia|]. eexists. now apply Hone.
           ++ intros k Hk Hk'. destruct (Nat.eq_dec k (il_nc s)) as [->|Hne]; [rewrite Hone in Hk'; easy|].
              rewrite ?nth_upd in Hk' by lens R; rewrite ?nth_upd by lens R. apply Nat.eqb_neq in Hne; rewrite Hne in *; apply Nat.eqb_neq in Hne. apply Hlow; [lia|exact Hk'].
           ++ intros k Hk. rewrite !nth_upd by lens R. destruct (Nat.eqb_spec k (il_nc s)) as [->|Hne]; [lia|]. apply Hhigh. lia.
Qed.

Lemma some_slots its (slots : list (option (nat * list A))) : Forall2 slotR its slots ->
  existsb is_some its = true <-> exists d, In (Some d) slots.
Proof.
  intros H. induction H as [|x y its slots Hxy H IH]; [cbn; split; [easy|intros [? []]]|].
  destruct x as [[d it]|], y as [[d' l]|]; cbn in Hxy |- *; try easy.
  - split; [intros _; eexists; now left|easy].
  - rewrite IH. split; intros [z Hz]; exists z; [now right|destruct Hz; [easy|assumption]].
Qed.

Lemma no_pend s slots : reads s slots [] -> il_nd s = n.
Proof.
  intros R. pose proof (r_pend _ _ _ R) as H. unfold pendR in H. apply Forall2_length in H. rewrite seq_length in H. cbn in H. pose proof (r_nd _ _ _ R). lia.
Qed.

Lemma step_skip fuel0 fuel s slots :
  reads s slots [] -> nth_error slots (il_nc s) = Some None -> (exists d, In (Some d) slots) ->
  exists s', il_loop ds cycle_length keep fuel0 (Datatypes.S fuel) s = il_loop ds cycle_length keep fuel0 fuel s' /\
    reads s' slots [] /\ il_nc s' = succ_cycle ds cycle_length (il_nc s) /\ il_fut s' = il_fut s /\ (marks s -> marks s').
Proof.
  intros R Hs Hex. destruct (reads_slot _ _ _ R) as (y & y' & Ey & Ey' & Hslot & Hlen). rewrite Hs in Ey'. injection Ey' as <-.
  destruct y as [[? it]|]; [easy|]. pose proof (no_pend _ _ R) as Hnd.
  eexists. split; [cbn [il_loop]; rewrite Ey, Hnd, Nat.ltb_irrefl, (proj2 (some_slots _ _ (r_slots _ _ _ R)) Hex); reflexivity|].
  split; [|split; [reflexivity|split; [reflexivity|]]].
  - split; cbn [il_its il_exh il_kept il_idx il_nc il_nd il_pf il_fut]; try apply R; try lia; [apply (succ_lt _ _ _ R)|rewrite (r_pf _ _ _ R); lia|rewrite <- Hnd; apply R].
  - intros M. split; [rewrite <- Hnd; apply M|apply M|]. left. destruct (m_filled _ M) as [Hfull|(m' & Hm & Hnd' & _)]; [exact Hfull|]. pose proof cl_le. lia.
Qed.

Lemma step_stop fuel0 fuel s slots :
  reads s slots [] -> nth_error slots (il_nc s) = Some None -> ~ (exists d, In (Some d) slots) ->
  il_loop ds cycle_length keep fuel0 (Datatypes.S fuel) s = (Stop, s).
Proof.
  intros R Hs Hex. destruct (reads_slot _ _ _ R) as (y & y' & Ey & Ey' & Hslot & Hlen). rewrite Hs in Ey'. injection Ey' as <-.
  destruct y as [[? it]|]; [easy|]. pose proof (no_pend _ _ R) as Hnd. cbn [il_loop]. rewrite Ey, Hnd, Nat.ltb_irrefl.
  destruct (existsb is_some (il_its s)) eqn:E; [|reflexivity]. now apply (some_slots _ _ (r_slots _ _ _ R)) in E.
Qed.

(** The state [s] has [out] still to give. *)
Definition to_give (s : il S C) (out : list (nat * A)) : Prop :=
  exists slots pend, reads s slots pend /\ robin (rotate (il_nc s) slots) pend out.

Lemma loop_next fuel0 : (N0 <= fuel0)%nat -> forall view pend out, robin view pend out -> forall s slots fuel,
  view = rotate (il_nc s) slots -> reads s slots pend -> (effort view pend < fuel)%nat ->
  exists s', il_loop ds cycle_length keep fuel0 fuel s = (match out with [] => Stop | (_, x) :: _ => Yield x end, s') /\
    to_give s' (tl out) /\ (il_fut s = [] -> il_fut s' = []) /\ (marks s -> marks s').
Proof.
  intros Hf view pend out H.
  induction H as [i x l view pend out H IH|i view pend out H IH|d view pend out H IH|view out Hex H IH|view Hno];
    intros s slots fuel Ev R Hfu; (destruct fuel as [|fuel]; [lia|]);
    destruct (reads_slot _ _ _ R) as (y & y' & Ey & Ey' & Hslot & Hlen); rewrite (rotate_head _ _ _ Ey') in Ev; injection Ev as Ey0 Ev; subst y' view.
  - destruct (step_take fuel0 fuel s slots pend i x l Hf R Ey') as (s' & E & R' & Hnc & Hft & HM). exists s'. split; [exact E|]. split; [|rewrite Hft; tauto].
    eexists _, _. split; [exact R'|]. rewrite Hnc. unfold succ_cycle. rewrite <- Hlen. rewrite (rotate_succ _ _ _ Ey'). exact H.
  - destruct (step_end fuel0 fuel s slots pend i Hf R Ey') as (s' & E & R' & Hnc & Hft & HM).
    destruct (fun a b => IH s' (update_nth (il_nc s) None slots) fuel a R' b) as (s2 & E2 & Hg & Hft2 & HM2).
    + rewrite Hnc. unfold succ_cycle. rewrite <- Hlen. now rewrite (rotate_succ _ _ _ Ey').
    + refine (Nat.lt_le_trans _ _ _ (effort_end i _ pend) _). now apply le_S_n.
    + exists s2. rewrite E, E2. rewrite Hft in Hft2. split; [reflexivity|]. auto 6.
  - destruct (step_open fuel0 fuel s slots pend d Hf R Ey') as (s' & E & R' & Hnc & Hft & HM).
    destruct (fun a b => IH s' (update_nth (il_nc s) (Some d) slots) fuel a R' b) as (s2 & E2 & Hg & Hft2 & HM2).
    + rewrite Hnc. now rewrite (rotate_update _ _ _ Ey').
    + refine (Nat.lt_le_trans _ _ _ (effort_open d _ pend) _). now apply le_S_n.
    + exists s2. rewrite E, E2. split; [reflexivity|]. auto 6.
  - destruct (step_skip fuel0 fuel s slots R Ey') as (s' & E & R' & Hnc & Hft & HM).
    { destruct Hex as [d Hd]. exists d. apply (Permutation_in _ (Permutation_sym (rotate_perm (il_nc s) slots))). rewrite (rotate_head _ _ _ Ey'). now right. }
    destruct (fun a b => IH s' slots fuel a R' b) as (s2 & E2 & Hg & Hft2 & HM2).
    + rewrite Hnc. unfold succ_cycle. rewrite <- Hlen. now rewrite (rotate_succ_same _ _ _ Ey').
    + refine (Nat.lt_le_trans _ _ _ (effort_skip _ Hex) _). now apply le_S_n.
    + exists s2. rewrite E, E2. rewrite Hft in Hft2. split; [reflexivity|]. auto 6.
  - exists s. split.
    + apply (step_stop fuel0 fuel s slots R Ey'). intros [d Hd]. apply (Permutation_in _ (rotate_perm (il_nc s) slots)) in Hd.
      rewrite (rotate_head _ _ _ Ey') in Hd. destruct Hd as [Hd|Hd]; [easy|]. now apply Hno in Hd.
    + split; [|easy]. exists slots, []. split; [exact R|]. cbn [tl]. rewrite (rotate_head _ _ _ Ey'). now constructor.
Qed.

(** Enough fuel. *)
Definition enough : nat := (N0 + (2 * n + cl) * Datatypes.S cl + cl + 1)%nat.
Lemma effort_bound s slots pend : reads s slots pend -> (effort (rotate (il_nc s) slots) pend < enough)%nat.
Proof.
  intros R. unfold effort, enough. destruct (reads_slot _ _ _ R) as (_ & _ & _ & _ & _ & Hlen).
  pose proof (lead_le (rotate (il_nc s) slots)) as H1. rewrite rotate_length in *.
  assert (H2 : (nheld (rotate (il_nc s) slots) <= cl)%nat).
  { rewrite <- Hlen, <- (rotate_length (il_nc s) slots). unfold nheld. clear. induction (rotate (il_nc s) slots) as [|[d|] l IH]; [easy| |];
      rewrite ?held_some, ?held_none; cbn [length]; lia. }
  assert (H3 : (length pend <= n)%nat). { pose proof (r_pend _ _ _ R) as H. apply Forall2_length in H. rewrite seq_length in H. lia. }
  rewrite Hlen in *. nia.
Qed.

Lemma started_reads s slots pend b : reads s slots pend ->
  reads (mkIl (il_nc s) (il_nd s) (il_idx s) (il_its s) (il_exh s) (il_kept s) (il_fut s) (il_pf s) b) slots pend.
Proof. intros R. split; apply R. Qed.
Lemma started_marks s b : marks s -> marks (mkIl (il_nc s) (il_nd s) (il_idx s) (il_its s) (il_exh s) (il_kept s) (il_fut s) (il_pf s) b).
Proof. intros M. split; [apply M|apply M|]. destruct (m_filled _ M) as [H|(m & H)]; [now left|right; now exists m]. Qed.

Lemma next_ok fuel s out : (enough <= fuel)%nat -> to_give s out ->
  exists s', il_next ds cycle_length keep fuel s = (match out with [] => Stop | (_, x) :: _ => Yield x end, s') /\
    to_give s' (tl out) /\ (il_fut s = [] -> il_fut s' = []) /\ (marks s -> marks s').
Proof.
  intros Hf (slots & pend & R & Hr). unfold il_next.
  destruct (loop_next fuel ltac:(unfold enough in Hf; lia) _ _ _ Hr (mkIl (il_nc s) (il_nd s) (il_idx s) (il_its s) (il_exh s) (il_kept s) (il_fut s) (il_pf s) true) slots fuel eq_refl (started_reads _ _ _ true R)) as (s' & E & Hg & Hft & HM).
  - pose proof (effort_bound _ _ _ R). cbn [il_nc]. lia.
  - exists s'. split; [exact E|]. split; [exact Hg|]. split; [exact Hft|]. intros M. now apply HM, started_marks.
Qed.

(** ** The start *)
Lemma numbered_nth (j : nat) l : nth_error (numbered ls) j = Some l -> l = (j, lst j).
Proof.
  intros H. unfold numbered in H. assert (Hj : (j < length ls)%nat).
  { assert (j < length (combine (seq 0 (length ls)) ls))%nat by (apply nth_error_Some; now rewrite H). rewrite combine_length, seq_length in *. lia. }
  apply nth_error_nth with (d := (0%nat, [])) in H. rewrite combine_nth in H by apply seq_length. rewrite seq_nth in H by exact Hj. now subst.
Qed.
Lemma init_reads : (0 < cl)%nat -> reads (il_init ds cycle_length) (List.repeat None cl) (numbered ls).
Proof.
  intros Hcl. split; cbn [il_init il_its il_exh il_kept il_idx il_nc il_nd il_pf il_fut]; rewrite ?repeat_length, ?seq_length; try easy; try lia.
  - generalize cl. intros m. induction m; cbn; constructor; [exact I|assumption].
  - unfold pendR. rewrite Nat.sub_0_r. apply Forall2_nth. split; [unfold numbered; rewrite combine_length, !seq_length, (f_len F); lia|].
    intros k j d Hj Hd. apply numbered_nth in Hd. subst d.
    assert (k < n)%nat by (rewrite <- (seq_length n 0); apply nth_error_Some; now rewrite Hj).
    apply nth_error_nth with (d := 0%nat) in Hj. rewrite seq_nth in Hj by assumption. cbn in Hj. subst j.
    split; [reflexivity|]. exists 0%nat. repeat split; lia || easy.
  - intros k d it H. apply nth_error_In, repeat_spec in H. discriminate.
  - intros k d' d it H. apply nth_error_In, repeat_spec in H. discriminate.
Qed.
Lemma nth_error_repeat {X} (x : X) m k : (k < m)%nat -> nth_error (List.repeat x m) k = Some x.
Proof. revert k. induction m; intros [|k]; cbn; intros; try lia; [easy|]. apply IHm. lia. Qed.
Lemma init_marks : (0 < cl)%nat -> marks (il_init ds cycle_length).
Proof.
  intros Hcl. split.
  - split; cbn [il_init il_idx il_its il_exh il_nd]; [apply seq_NoDup|]. intros k d Hk. right.
    assert (Hk' : (k < cl)%nat) by (rewrite <- (seq_length cl 0); apply nth_error_Some; now rewrite Hk).
    apply nth_error_nth with (d := 0%nat) in Hk. rewrite seq_nth in Hk by exact Hk'. rewrite !nth_error_repeat by exact Hk'. repeat split; lia.
  - intros k x H. apply nth_error_In, repeat_spec in H. discriminate.
  - right. exists 0%nat. unfold first_round. cbn [il_init il_its il_exh il_nd il_nc il_fut]. split; [lia|]. split; [easy|]. split; [easy|]. split; [now left|].
    split; [lia|]. intros k Hk. rewrite !nth_error_repeat by lia. easy.
Qed.
Lemma init_gives out : (0 < cl)%nat -> interleaved cl ls out -> to_give (il_init ds cycle_length) out.
Proof.
  intros Hcl H. exists (List.repeat None cl), (numbered ls). split; [now apply init_reads|]. unfold rotate. cbn. now rewrite app_nil_r.
Qed.

(** ** get_state *)

(** A checkpoint and the places it stands for. *)
Definition entR (d : nat) (st : option C) (e : bool) (t : option (nat * list A)) : Prop :=
  match st with
  | None => False
  | Some c => if e then t = None
              else exists h p, nth_error ds d = Some h /\ crep d c p /\ (p <= length (lst d))%nat /\ t = Some (d, skipn p (lst d))
  end.
Record stands_for (c : ilck C) (slots : list (option (nat * list A))) (pend : list (nat * list A)) : Prop := {
  c_idx : length (ck_idx c) = cl;
  c_states : length (ck_states c) = cl;
  c_exh : length (ck_exh c) = cl;
  c_nc : (ck_nc c < cl)%nat;
  c_nd : (ck_nd c <= n)%nat;
  c_len : length slots = cl;
  c_slots : forall k d st e t, nth_error (ck_idx c) k = Some d -> nth_error (ck_states c) k = Some st ->
    nth_error (ck_exh c) k = Some e -> nth_error slots k = Some t -> entR d st e t;
  c_pend : pendR (ck_nd c) (ck_fut c) pend;
  c_ids : NoDup (ck_idx c) /\ forall d, In d (ck_idx c) -> (d < ck_nd c)%nat;
}.
(** The checkpoint [c] has [out] still to give. *)
Definition ck_to_give (c : ilck C) (out : list (nat * A)) : Prop :=
  exists slots pend, stands_for c slots pend /\ robin (rotate (ck_nc c) slots) pend out.

(** What get_state reports for slot [k] if nothing has to be made. *)
Definition entry (s : il S C) (k : nat) : option C :=
  match nth_error (il_its s) k with
  | Some (Some (d, it)) => match nth_error ds d with Some h => Some (h_get h it) | None => None end
  | _ => match nth_error (il_exh s) k with Some o => o | None => None end
  end.
Definition occupied (s : il S C) (k : nat) : Prop :=
  (exists d it h, nth_error (il_its s) k = Some (Some (d, it)) /\ nth_error ds d = Some h) \/
  (nth_error (il_its s) k = Some None /\ exists c, nth_error (il_exh s) k = Some (Some c)).

Lemma get_prefix b : forall a i s, (forall k, (i <= k < i + a)%nat -> occupied s k) ->
  il_get_slots ds i (a + b) s = let! (cs, s') := il_get_slots ds (i + a) b s in Ok (map (entry s) (seq i a) ++ cs, s').
Proof.
  induction a as [|a IH]; intros i s H.
  - cbn [Nat.add seq map app]. rewrite Nat.add_0_r. destruct (il_get_slots ds i b s) as [[cs s']| |]; reflexivity.
  - cbn [Nat.add il_get_slots seq map]. unfold entry at 1. rewrite IH by (intros k Hk; apply H; lia).
    replace (i + 1 + a)%nat with (i + Datatypes.S a)%nat by lia. replace (i + 1)%nat with (Datatypes.S i) by lia.
    destruct (H i ltac:(lia)) as [(d & it & h & E & Eh)|(E & c & Ec)].
    + rewrite E, Eh. destruct (il_get_slots ds (i + Datatypes.S a) b s) as [[cs s']| |]; reflexivity.
    + rewrite E, Ec. destruct (il_get_slots ds (i + Datatypes.S a) b s) as [[cs s']| |]; reflexivity.
Qed.

(** Making the iterators of the slots from [i] on. *)
Record made_from (i : nat) (s s2 : il S C) : Prop := {
  mf_nc : il_nc s2 = il_nc s;
  mf_nd : il_nd s2 = cl;
  mf_exh : il_exh s2 = il_exh s;
  mf_kept : il_kept s2 = il_kept s;
  mf_fut : il_fut s2 = il_fut s;
  mf_started : il_started s2 = il_started s;
  mf_pf : (il_pf s = i -> il_started s = true -> il_pf s2 = cl);
  mf_its_len : length (il_its s2) = length (il_its s);
  mf_idx_len : length (il_idx s2) = length (il_idx s);
  mf_low : forall k, (k < i)%nat -> nth_error (il_its s2) k = nth_error (il_its s) k /\ nth_error (il_idx s2) k = nth_error (il_idx s) k;
  mf_high : forall k, (i <= k < cl)%nat -> exists h, nth_error ds k = Some h /\
    nth_error (il_its s2) k = Some (Some (k, h_init h)) /\ nth_error (il_idx s2) k = Some k;
}.
Lemma get_fill : forall b i s, (i + b = cl)%nat -> il_nd s = i -> (il_started s = true -> il_pf s = i) ->
  length (il_its s) = cl -> length (il_idx s) = cl ->
  (forall k, (i <= k < cl)%nat -> nth_error (il_its s) k = Some None /\ nth_error (il_exh s) k = Some None) ->
  exists cs s2, il_get_slots ds i b s = Ok (cs, s2) /\ made_from i s s2 /\ length cs = b /\
    forall k h, (k < b)%nat -> nth_error ds (i + k) = Some h -> nth_error cs k = Some (Some (h_get h (h_init h))).
Proof.
  induction b as [|b IH]; intros i s Hi Hnd Hpf Hl1 Hl2 Hempty.
  - exists [], s. cbn. repeat split; try easy; try lia.
  - pose proof cl_le as Hcl. destruct (Hempty i ltac:(lia)) as (E1 & E2). cbn [il_get_slots]. rewrite E1, E2, Hnd.
    destruct (Nat.leb_spec n i); [lia|]. destruct (nth_error ds i) as [h|] eqn:Eh; [|apply nth_error_None in Eh; lia].
    assert (Hm : (if il_started s then make_next ds s else Some (i, h_init h)) = Some (i, h_init h)).
    { destruct (il_started s); [|easy]. unfold make_next. now rewrite Hpf, Eh. }
    rewrite Hm, Eh.
    match goal with |- context [il_get_slots ds (i + 1) b ?x] => set (s1 := x) end.
    destruct (IH (i + 1)%nat s1) as (cs & s2 & E & M & Hlen & Hcs).
    + lia. + reflexivity || (unfold s1; cbn; lia). + unfold s1. cbn [il_started il_pf]. intros Hs. rewrite Hs, (Hpf Hs). reflexivity.
    + unfold s1. cbn [il_its]. now rewrite update_nth_length. + unfold s1. cbn [il_idx]. now rewrite update_nth_length.
    + intros k Hk. unfold s1. cbn [il_its il_exh]. rewrite nth_upd by lia. destruct (Nat.eqb_spec k i); [lia|]. apply Hempty. lia.
    + rewrite E. cbn [bind]. exists (Some (h_get h (h_init h)) :: cs), s2. split; [reflexivity|]. split; [|split; [cbn; lia|]].
      * destruct M as [M1 M2 M3 M4 M5 M6 M7 M8 M9 M10 M11]. unfold s1 in *. cbn [il_nc il_nd il_exh il_kept il_fut il_started il_pf il_its il_idx] in *.
        rewrite update_nth_length in M8. rewrite update_nth_length in M9. split; try easy.
        -- intros Hp Hs. apply M7; [rewrite Hs; lia|exact Hs].
        -- intros k Hk. destruct (M10 k ltac:(lia)) as (A1 & A2). rewrite A1, A2, !nth_upd by lia. destruct (Nat.eqb_spec k i); [lia|easy].
        -- intros k Hk. destruct (Nat.eq_dec k i) as [->|Hne].
           ++ exists h. destruct (M10 i ltac:(lia)) as (A1 & A2). rewrite A1, A2, !nth_upd, Nat.eqb_refl by lia. easy.
           ++ apply M11. lia.
      * intros [|k] h' Hk Eh'; cbn [nth_error]; [rewrite Nat.add_0_r in Eh'; congruence|].
        apply Hcs; [lia|]. rewrite <- Eh'. f_equal. lia.
Qed.

Lemma robin_prefill1 d (dsets : list (nat * list A)) pre pend out :
  robin (Some d :: List.repeat None (length dsets) ++ pre) (dsets ++ pend) out -> robin (Some d :: map Some dsets ++ pre) pend out.
Proof.
  intros H. inversion H as [? x l' ? ? o' H2|? ? ? ? H2| | | ]; subst; constructor; rewrite <- app_assoc in *; now apply robin_prefill.
Qed.

Lemma nth_error_map_seq {X} (f : nat -> X) i b k : (k < b)%nat -> nth_error (map f (seq i b)) k = Some (f (i + k)%nat).
Proof.
  intros H. rewrite nth_error_map. rewrite (nth_error_nth' _ 0%nat) by (rewrite seq_length; exact H). cbn. now rewrite seq_nth by exact H.
Qed.

Lemma entry_ok s slots pend k d st e t : reads s slots pend -> marks s -> occupied s k ->
  nth_error (il_idx s) k = Some d -> Some st = Some (entry s k) -> nth_error (map is_some (il_exh s)) k = Some e ->
  nth_error slots k = Some t -> entR d st e t.
Proof.
  intros R M Ho Hd Hst He Ht. injection Hst as ->. unfold entry. rewrite nth_error_map in He.
  pose proof (proj2 (proj1 (Forall2_nth _ _ _) (r_slots _ _ _ R)) k) as Hs.
  destruct Ho as [(d' & it & h & E & Eh)|(E & c & Ec)].
  - rewrite E, Eh. rewrite (m_active _ M _ _ E) in He. injection He as <-. rewrite (r_same _ _ _ R _ _ _ E) in Hd. injection Hd as <-.
    specialize (Hs _ _ E Ht). destruct t as [[d2 l]|]; [|easy]. destruct Hs as (-> & h' & p & Eh' & Hr & ->). rewrite Eh in Eh'. injection Eh' as <-.
    exists h, p. split; [easy|]. split; [now apply (f_get F)|]. split; [now apply (f_le F) in Hr|easy].
  - specialize (Hs _ _ E Ht). rewrite E, Ec in *. injection He as <-. now destruct t.
Qed.

Lemma get_ok s out : marks s -> to_give s out ->
  exists c s', il_get ds cycle_length s = Ok (c, s') /\ to_give s' out /\ marks s' /\ ck_to_give c out /\
    il_fut s' = il_fut s /\ ck_fut c = il_fut s.
Proof.
  intros M (slots & pend & R & Hr). destruct (reads_slot _ _ _ R) as (_ & _ & _ & _ & _ & Hlen).
  (* the state at the end, when all slots are occupied *)
  assert (Hfin : forall s1 slots1 pend1 cs, reads s1 slots1 pend1 -> marks s1 -> (forall k, (k < cl)%nat -> occupied s1 k) ->
    robin (rotate (il_nc s1) slots1) pend1 out -> length cs = cl -> (forall k, (k < cl)%nat -> nth_error cs k = Some (entry s1 k)) ->
    ck_to_give (mkCk (il_nc s1) (il_nd s1) (il_idx s1) cs (map is_some (il_exh s1)) (il_fut s1)) out).
  { intros s1 slots1 pend1 cs R1 M1 Ho Hr1 Hcs Hent. exists slots1, pend1. split; [|exact Hr1].
    destruct (reads_slot _ _ _ R1) as (_ & _ & _ & _ & _ & Hlen1).
    split; cbn [ck_nc ck_nd ck_idx ck_states ck_exh ck_fut]; rewrite ?map_length; try apply R1; try easy.
    2:{ destruct (m_ids _ M1) as [I1 I2]. split; [exact I1|]. intros d Hd. apply In_nth_error in Hd as (k & Hk).
        assert (Hk' : (k < cl)%nat) by (rewrite <- (r_idx _ _ _ R1); apply nth_error_Some; now rewrite Hk).
        destruct (I2 _ _ Hk) as [H|(_ & H1 & H2 & _)]; [exact H|]. destruct (Ho k Hk') as [(? & ? & ? & H & _)|(_ & c & H)]; congruence. }
    intros k d st e t Hd Hst He Ht.
    assert (Hk : (k < cl)%nat) by (rewrite <- Hlen1; apply nth_error_Some; now rewrite Ht).
    apply (entry_ok s1 slots1 pend1 k d st e t R1 M1 (Ho k Hk) Hd); [|exact He|exact Ht]. rewrite <- Hst. now apply Hent. }
  assert (Hocc : forall k, (k < cl)%nat -> (nth_error (il_its s) k = Some None -> exists c, nth_error (il_exh s) k = Some (Some c)) -> occupied s k).
  { intros k Hk Hf. destruct (nth_error (il_its s) k) as [[[d it]|]|] eqn:E.
    - left. destruct (nth_error slots k) as [t|] eqn:Et; [|apply nth_error_None in Et; lia].
      pose proof (proj2 (proj1 (Forall2_nth _ _ _) (r_slots _ _ _ R)) k _ _ E Et) as Hs. destruct t as [[d2 l]|]; [|easy].
      destruct Hs as (_ & h & _ & Eh & _). now exists d, it, h.
    - right. split; [exact E|]. now apply Hf.
    - apply nth_error_None in E. rewrite (r_its _ _ _ R) in E. lia. }
  unfold il_get. destruct (m_filled _ M) as [Hfull|(m & Hm & Hnd & Hfut & Hnc & Hlow & Hhigh)].
  - assert (Ho : forall k, (k < cl)%nat -> occupied s k) by (intros k Hk; apply Hocc; [exact Hk|apply Hfull]).
    pose proof (get_prefix 0 cl 0 s ltac:(intros k Hk; apply Ho; lia)) as E. rewrite Nat.add_0_r in E. rewrite E. cbn [il_get_slots bind].
    assert (Hsame : (if il_started s then s else mkIl (il_nc s) (il_nd s) (il_idx s) (il_its s) (il_exh s) (il_kept s) (il_fut s) (il_nd s) false) = s).
    { destruct (il_started s) eqn:Es; [easy|]. rewrite <- (r_pf _ _ _ R) at 2. destruct s. cbn in *. now subst. }
    rewrite Hsame. eexists _, s. split; [reflexivity|]. split; [now exists slots, pend|]. split; [exact M|]. split; [|easy].
    rewrite app_nil_r. apply (Hfin s slots pend); try easy.
    + now rewrite map_length, seq_length.
    + intros k Hk. now rewrite nth_error_map_seq.
  - (* the rest of the first round is made now *)
    pose proof cl_le as Hcl.
    assert (Ho : forall k, (k < m)%nat -> occupied s k) by (intros k Hk; apply Hocc; [lia|now apply Hlow]).
    pose proof (get_prefix (cl - m) m 0 s ltac:(intros k Hk; apply Ho; lia)) as E. replace (m + (cl - m))%nat with cl in E by lia. cbn [Nat.add] in E.
    destruct (get_fill (cl - m) m s ltac:(lia) Hnd ltac:(intros _; now rewrite (r_pf _ _ _ R)) (r_its _ _ _ R) (r_idx _ _ _ R) Hhigh) as (cs & s2 & E2 & Mf & Hcsl & Hcs).
    rewrite E, E2. cbn [bind].
    set (s3 := if il_started s2 then s2 else mkIl (il_nc s2) (il_nd s2) (il_idx s2) (il_its s2) (il_exh s2) (il_kept s2) (il_fut s2) (il_nd s2) false).
    assert (H3 : il_nc s3 = il_nc s2 /\ il_nd s3 = il_nd s2 /\ il_idx s3 = il_idx s2 /\ il_its s3 = il_its s2 /\ il_exh s3 = il_exh s2 /\
                 il_kept s3 = il_kept s2 /\ il_fut s3 = il_fut s2 /\ il_pf s3 = cl).
    { unfold s3. destruct (il_started s2) eqn:Es.
      - repeat split. apply (mf_pf _ _ _ Mf); [now rewrite (r_pf _ _ _ R)|]. now rewrite <- (mf_started _ _ _ Mf).
      - repeat split. apply (mf_nd _ _ _ Mf). }
    destruct H3 as (G1 & G2 & G3 & G4 & G5 & G6 & G7 & G8).
    set (dsets := map (fun j => (j, lst j)) (seq m (cl - m))). set (pend' := map (fun j => (j, lst j)) (seq cl (n - cl))).
    assert (Hpend : pend = dsets ++ pend').
    { unfold dsets, pend'. rewrite <- map_app. replace (seq m (cl - m) ++ seq cl (n - cl)) with (seq m (n - m)).
      - pose proof (r_pend _ _ _ R) as Hp. rewrite Hfut, Hnd in Hp. unfold pendR in Hp. clear - Hp. remember (seq m (n - m)) as q eqn:Eq. clear Eq.
        induction Hp as [|j [d l] q pend (H1 & p & H2 & _ & H3) Hp IH]; cbn; [easy|]. cbn in H1, H2, H3. subst d p l. now rewrite IH.
      - replace (n - m)%nat with ((cl - m) + (n - cl))%nat by lia. rewrite seq_app. do 2 f_equal. lia. }
    set (slots' := firstn m slots ++ map Some dsets).
    assert (Hdl : length dsets = (cl - m)%nat) by (unfold dsets; now rewrite map_length, seq_length).
    assert (Hfl : length (firstn m slots) = m) by (rewrite firstn_length; lia).
    assert (Hs'l : length slots' = cl) by (unfold slots'; rewrite app_length, map_length; lia).
    assert (Htail : skipn m slots = List.repeat None (cl - m)).
    { apply nth_error_ext. intros k. destruct (Nat.lt_ge_cases k (cl - m)) as [Hk|Hk].
      - rewrite nth_error_repeat by exact Hk. destruct (Hhigh (m + k)%nat ltac:(lia)) as (E1 & _).
        pose proof (r_slots _ _ _ R) as Hs. apply Forall2_nth in Hs. destruct Hs as (_ & Hs).
        assert (Hx : nth_error (skipn m slots) k = nth_error slots (m + k)) by (clear; revert m; induction slots as [|a l IH]; intros [|m]; cbn; auto; destruct k; auto).
        rewrite Hx. destruct (nth_error slots (m + k)) as [t|] eqn:Et; [|apply nth_error_None in Et; lia]. specialize (Hs _ _ _ E1 Et). now destruct t.
      - rewrite !(proj2 (nth_error_None _ _)); [easy|rewrite repeat_length; lia|rewrite skipn_length; lia]. }
    assert (Hslot' : forall k t, nth_error slots' k = Some t -> (k < m)%nat /\ nth_error slots k = Some t \/ (m <= k < cl)%nat /\ t = Some (k, lst k)).
    { intros k t Hk. unfold slots' in Hk. destruct (Nat.lt_ge_cases k m) as [Hkm|Hkm].
      - left. split; [easy|]. rewrite nth_error_app1 in Hk by lia. rewrite <- Hk. clear - Hkm. revert k Hkm. revert m.
        induction slots as [|a l IH]; intros [|m] [|k] Hk; cbn; try lia; try easy. apply IH. lia.
      - right. rewrite nth_error_app2 in Hk by lia. rewrite Hfl in Hk. assert (Hk2 : (k - m < cl - m)%nat).
        { rewrite <- Hdl, <- (map_length Some dsets). apply nth_error_Some. now rewrite Hk. }
        split; [lia|]. unfold dsets in Hk. rewrite map_map, nth_error_map_seq in Hk by exact Hk2. injection Hk as <-. replace (m + (k - m))%nat with k by lia. easy. }
    assert (R' : reads s3 slots' pend').
    { split; rewrite ?G1, ?G2, ?G3, ?G4, ?G5, ?G6, ?G7, ?G8, ?(mf_nc _ _ _ Mf), ?(mf_nd _ _ _ Mf), ?(mf_exh _ _ _ Mf), ?(mf_kept _ _ _ Mf), ?(mf_fut _ _ _ Mf),
        ?(mf_its_len _ _ _ Mf), ?(mf_idx_len _ _ _ Mf); try apply R; try easy.
      - apply Forall2_nth. rewrite (mf_its_len _ _ _ Mf), (r_its _ _ _ R), Hs'l. split; [easy|]. intros k x y Hx Hy.
        destruct (Hslot' _ _ Hy) as [(Hk & Hy')|(Hk & ->)].
        + destruct (mf_low _ _ _ Mf k Hk) as (A1 & _). rewrite A1 in Hx. apply (proj2 (proj1 (Forall2_nth _ _ _) (r_slots _ _ _ R)) _ _ _ Hx Hy').
        + destruct (mf_high _ _ _ Mf k Hk) as (h & Eh & A1 & _). rewrite A1 in Hx. injection Hx as <-. split; [easy|]. exists h, 0%nat.
          split; [easy|]. split; [now apply (f_init F)|easy].
      - rewrite Hfut. unfold pendR, pend'. generalize (seq cl (n - cl)). intros q. induction q as [|j q IH]; cbn; constructor; [|exact IH].
        split; [easy|]. exists 0%nat. split; [easy|]. split; [lia|easy].
      - intros k d it Hk. destruct (Nat.lt_ge_cases k m) as [Hkm|Hkm].
        + destruct (mf_low _ _ _ Mf k Hkm) as (A1 & A2). rewrite A1 in Hk. rewrite A2. now apply (r_same _ _ _ R _ _ it).
        + assert (Hkc : (k < cl)%nat). { rewrite <- (r_its _ _ _ R), <- (mf_its_len _ _ _ Mf). apply nth_error_Some. now rewrite Hk. }
          destruct (mf_high _ _ _ Mf k ltac:(lia)) as (h & Eh & A1 & A2). rewrite A1 in Hk. injection Hk as <- _. exact A2. }
    assert (M' : marks s3).
    { split; unfold ids; rewrite ?G2, ?G3, ?G4, ?G5, ?(mf_exh _ _ _ Mf), ?(mf_nd _ _ _ Mf).
      - destruct (m_ids _ M) as [I1 I2].
        assert (Hd : forall k d, nth_error (il_idx s2) k = Some d -> (k < cl)%nat /\ ((k < m)%nat /\ nth_error (il_idx s) k = Some d /\ (d < m)%nat \/ (m <= k)%nat /\ d = k)).
        { intros k d Hk. assert (Hkc : (k < cl)%nat) by (rewrite <- (r_idx _ _ _ R), <- (mf_idx_len _ _ _ Mf); apply nth_error_Some; now rewrite Hk).
          split; [exact Hkc|]. destruct (Nat.lt_ge_cases k m) as [Hkm|Hkm].
          - left. destruct (mf_low _ _ _ Mf k Hkm) as (_ & A2). rewrite A2 in Hk. split; [exact Hkm|]. split; [exact Hk|].
            destruct (I2 _ _ Hk) as [H|(_ & _ & _ & H)]; lia.
          - right. destruct (mf_high _ _ _ Mf k ltac:(lia)) as (h & _ & _ & A2). rewrite A2 in Hk. injection Hk as <-. easy. }
        split.
        + apply NoDup_nth_error. intros i j Hi Eij. destruct (nth_error (il_idx s2) i) as [d|] eqn:Ei; [|now apply nth_error_None in Ei; lia].
          symmetry in Eij. destruct (Hd _ _ Ei) as (_ & [(Hi' & Hi2 & Hi3)|(Hi' & Hi2)]), (Hd _ _ Eij) as (_ & [(Hj' & Hj2 & Hj3)|(Hj' & Hj2)]); try lia.
          apply (proj1 (NoDup_nth_error _) I1); [apply nth_error_Some; now rewrite Hi2|congruence].
        + intros k d Hk. left. destruct (Hd _ _ Hk) as (Hkc & [(Hi' & Hi2 & Hi3)|(Hi' & Hi2)]); lia.
      - intros k x Hk. destruct (Nat.lt_ge_cases k m) as [Hkm|Hkm].
        + destruct (mf_low _ _ _ Mf k Hkm) as (A1 & _). rewrite A1 in Hk. now apply (m_active _ M k x).
        + assert (Hkc : (k < cl)%nat). { rewrite <- (r_its _ _ _ R), <- (mf_its_len _ _ _ Mf). apply nth_error_Some. now rewrite Hk. }
          apply Hhigh. lia.
      - left. intros k Hk. rewrite G4 in Hk. rewrite G5, (mf_exh _ _ _ Mf). destruct (Nat.lt_ge_cases k m) as [Hkm|Hkm].
        + destruct (mf_low _ _ _ Mf k Hkm) as (A1 & _). rewrite A1 in Hk. now apply Hlow.
        + assert (Hkc : (k < cl)%nat). { rewrite <- (r_its _ _ _ R), <- (mf_its_len _ _ _ Mf). apply nth_error_Some. now rewrite Hk. }
          destruct (mf_high _ _ _ Mf k ltac:(lia)) as (h & Eh & A1 & A2). rewrite A1 in Hk. discriminate. }
    assert (Hr' : robin (rotate (il_nc s3) slots') pend' out).
    { rewrite G1, (mf_nc _ _ _ Mf). destruct Hnc as [Hnc|(Hnc & x & Hx)].
      - rewrite Hnc in *. unfold rotate in Hr. rewrite Htail, <- Hdl, Hpend in Hr. apply robin_prefill in Hr.
        unfold slots'. rewrite <- Hfl at 1. rewrite rotate_app. exact Hr.
      - destruct (nth_error slots (il_nc s)) as [t|] eqn:Et; [|apply nth_error_None in Et; lia].
        pose proof (proj2 (proj1 (Forall2_nth _ _ _) (r_slots _ _ _ R)) _ _ _ Hx Et) as Hsl. destruct x as [d it], t as [d'|]; [|now destruct d].
        rewrite (rotate_head _ _ _ Et), Hnc, Htail, <- Hdl, Hpend in Hr. apply robin_prefill1 in Hr.
        assert (Et' : nth_error slots' (il_nc s) = Some (Some d')).
        { unfold slots'. rewrite nth_error_app1 by lia. rewrite <- Et. clear - Hnc. assert (Hk : (il_nc s < m)%nat) by lia. clear Hnc. revert Hk. generalize (il_nc s). revert m.
          induction slots as [|a l IH]; intros [|m] [|k] Hk; cbn; try lia; try easy. apply IH. lia. }
        rewrite (rotate_head _ _ _ Et'), Hnc. unfold slots'. rewrite <- Hfl at 1. rewrite skipn_app, skipn_all, Nat.sub_diag. cbn [app skipn].
        rewrite firstn_app. replace (il_nc s - length (firstn m slots))%nat with 0%nat by lia. cbn [firstn]. rewrite app_nil_r, firstn_firstn.
        replace (Nat.min (il_nc s) m) with (il_nc s) by lia. exact Hr. }
    eexists _, s3. split; [reflexivity|]. split; [now exists slots', pend'|]. split; [exact M'|].
    assert (Ho3 : forall k, (k < cl)%nat -> occupied s3 k).
    { intros k Hk. unfold occupied. rewrite G4, G5, (mf_exh _ _ _ Mf). destruct (Nat.lt_ge_cases k m) as [Hkm|Hkm].
      - destruct (mf_low _ _ _ Mf k Hkm) as (A1 & _). rewrite A1. now apply Ho.
      - destruct (mf_high _ _ _ Mf k ltac:(lia)) as (h & Eh & A1 & A2). left. exists k, (h_init h), h. easy. }
    split; [|split; [rewrite G7; apply (mf_fut _ _ _ Mf)|cbn [ck_fut]; rewrite G7; apply (mf_fut _ _ _ Mf)]].
    apply (Hfin s3 slots' pend'); try easy.
    + rewrite app_length, map_length, seq_length. lia.
    + intros k Hk. destruct (Nat.lt_ge_cases k m) as [Hkm|Hkm].
      * rewrite nth_error_app1 by (rewrite map_length, seq_length; lia). rewrite nth_error_map_seq by lia. cbn [Nat.add]. f_equal. unfold entry. rewrite G4, G5, (mf_exh _ _ _ Mf).
        destruct (mf_low _ _ _ Mf k Hkm) as (A1 & _). now rewrite A1.
      * rewrite nth_error_app2 by (rewrite map_length, seq_length; lia). rewrite map_length, seq_length.
        destruct (mf_high _ _ _ Mf k ltac:(lia)) as (h & Eh & A1 & A2). unfold entry. rewrite G4, A1, Eh.
        apply Hcs; [lia|]. replace (m + (k - m))%nat with k by lia. exact Eh.
Qed.

(** ** set_state *)

(** Whether the slots from [k] on can be restored into. *)
Record settable (k : nat) (s : il S C) : Prop := {
  t_its : length (il_its s) = cl;
  t_exh : length (il_exh s) = cl;
  t_kept : length (il_kept s) = cl;
  t_keptR : keptR (il_kept s);
  t_slots : forall i d it, (k <= i)%nat -> nth_error (il_its s) i = Some (Some (d, it)) ->
    nth_error (il_idx s) i = Some d /\ exists h p, nth_error ds d = Some h /\ rep d it p;
  t_used : used = true \/ (forall i x, (k <= i)%nat -> nth_error (il_its s) i <> Some (Some x)) /\
                          (forall i x, (k <= i)%nat -> nth_error (il_kept s) i <> Some (Some x));
}.
Record set_from (k : nat) (entries : list (nat * option C)) (exh : list bool) (slots : list (option (nat * list A))) (s s' : il S C) : Prop := {
  sf_started : il_started s' = il_started s;
  sf_its : length (il_its s') = cl;
  sf_exh : length (il_exh s') = cl;
  sf_kept : length (il_kept s') = cl;
  sf_keptR : keptR (il_kept s');
  sf_low : forall i, (i < k)%nat -> nth_error (il_its s') i = nth_error (il_its s) i /\ nth_error (il_exh s') i = nth_error (il_exh s) i;
  sf_slot : forall i x t, (k <= i)%nat -> nth_error (il_its s') i = Some x -> nth_error slots i = Some t -> slotR x t;
  sf_idx : forall i d it, (k <= i)%nat -> nth_error (il_its s') i = Some (Some (d, it)) -> exists st, nth_error entries (i - k) = Some (d, st);
  sf_mark : forall i e, (k <= i)%nat -> nth_error exh i = Some e ->
    if e then nth_error (il_its s') i = Some None /\ exists c, nth_error (il_exh s') i = Some (Some c)
    else (exists x, nth_error (il_its s') i = Some (Some x)) /\ nth_error (il_exh s') i = nth_error (il_exh s) i;
}.
Lemma set_slots_ok exh slots fuel : (N0 <= fuel)%nat -> length exh = cl -> length slots = cl -> forall entries k s,
  (k + length entries = cl)%nat -> settable k s ->
  (forall i d st e t, nth_error entries i = Some (d, st) -> nth_error exh (k + i) = Some e -> nth_error slots (k + i) = Some t -> entR d st e t) ->
  exists s', il_set_slots ds keep truthy fuel k entries exh s = Ok s' /\ set_from k entries exh slots s s'.
Proof.
  intros Hf He Hs. induction entries as [|[d st] rest IH]; intros k s Hk T Hent.
  - cbn in Hk. exists s. cbn. split; [reflexivity|]. destruct T. split; try easy.
    + intros i x t Hi Hx. assert (i < length (il_its s))%nat by (apply nth_error_Some; now rewrite Hx). lia.
    + intros i d it Hi Hx. assert (i < length (il_its s))%nat by (apply nth_error_Some; now rewrite Hx). lia.
    + intros i e Hi Hx. assert (i < length exh)%nat by (apply nth_error_Some; now rewrite Hx). lia.
  - cbn [length] in Hk.
    destruct (nth_error exh k) as [e|] eqn:Ee; [|apply nth_error_None in Ee; lia].
    destruct (nth_error slots k) as [t|] eqn:Et; [|apply nth_error_None in Et; lia].
    destruct (nth_error (il_its s) k) as [cur|] eqn:Ecur; [|apply nth_error_None in Ecur; rewrite (t_its _ _ T) in Ecur; lia].
    pose proof (Hent 0%nat d st e t eq_refl) as H0. rewrite Nat.add_0_r in H0. specialize (H0 Ee Et).
    destruct st as [c|]; [|easy]. cbn [entR] in H0.
    assert (Hent' : forall i d0 st e0 t0, nth_error rest i = Some (d0, st) -> nth_error exh (k + 1 + i) = Some e0 -> nth_error slots (k + 1 + i) = Some t0 -> entR d0 st e0 t0).
    { intros i d0 st e0 t0 A1 A2 A3. apply (Hent (Datatypes.S i) d0 st e0 t0); [exact A1| |]; replace (k + Datatypes.S i)%nat with (k + 1 + i)%nat by lia; assumption. }
    (* one slot set, then the rest *)
    assert (Hgo : forall s1 x mark kept', il_its s1 = update_nth k x (il_its s) -> il_exh s1 = mark -> il_kept s1 = kept' -> il_started s1 = il_started s -> il_idx s1 = il_idx s ->
      length mark = cl -> length kept' = cl -> keptR kept' -> slotR x t ->
      (forall d0 it, x = Some (d0, it) -> d0 = d) ->
      (forall i, i <> k -> nth_error mark i = nth_error (il_exh s) i) ->
      (forall i y, (k < i)%nat -> nth_error kept' i = Some (Some y) -> nth_error (il_kept s) i = Some (Some y)) ->
      (if e then x = None /\ exists c, nth_error mark k = Some (Some c) else (exists y, x = Some y) /\ nth_error mark k = nth_error (il_exh s) k) ->
      exists s', il_set_slots ds keep truthy fuel (k + 1) rest exh s1 = Ok s' /\ set_from k ((d, Some c) :: rest) exh slots s s').
    { intros s1 x mark kept' G1 G2 G3 G4 G5 L1 L2 HK Hx Hd Hmark Hkp Hxe.
      destruct (IH (k + 1)%nat s1) as (s' & E & SF); [lia| |exact Hent'|].
      - split; rewrite ?G1, ?G2, ?G3, ?G5, ?update_nth_length; try assumption.
        + apply T.
        + intros i d0 it Hi. rewrite nth_upd by (rewrite (t_its _ _ T); lia). destruct (Nat.eqb_spec i k); [lia|]. apply (t_slots _ _ T). lia.
        + destruct (t_used _ _ T) as [U|(U1 & U2)]; [now left|right]. split.
          * intros i y Hi. rewrite nth_upd by (rewrite (t_its _ _ T); lia). destruct (Nat.eqb_spec i k); [lia|]. apply U1. lia.
          * intros i y Hi Hy. apply Hkp in Hy; [|lia]. revert Hy. apply U2. lia.
      - exists s'. split; [exact E|]. destruct SF as [B1 B2 B3 B4 B5 B6 B7 B8 B9].
        assert (Hat : nth_error (il_its s') k = Some x /\ nth_error (il_exh s') k = nth_error mark k).
        { destruct (B6 k ltac:(lia)) as (A1 & A2). rewrite A1, A2, G1, G2, nth_upd, Nat.eqb_refl by (rewrite (t_its _ _ T); lia). easy. }
        split; try assumption.
        + congruence.
        + intros i Hi. destruct (B6 i ltac:(lia)) as (A1 & A2). rewrite A1, A2, G1, G2. rewrite nth_upd by (rewrite (t_its _ _ T); lia).
          destruct (Nat.eqb_spec i k); [lia|]. split; [easy|]. apply Hmark. lia.
        + intros i x' t' Hi Hx' Ht'. destruct (Nat.eq_dec i k) as [->|Hne]; [|apply (B7 i); [lia|easy|easy]].
          destruct Hat as (A1 & _). rewrite A1 in Hx'. injection Hx' as <-. rewrite Et in Ht'. injection Ht' as <-. exact Hx.
        + intros i d0 it Hi Hx'. destruct (Nat.eq_dec i k) as [->|Hne].
          * destruct Hat as (A1 & _). rewrite A1 in Hx'. injection Hx' as ->. rewrite Nat.sub_diag. exists (Some c). cbn. now rewrite (Hd _ _ eq_refl).
          * destruct (B8 i d0 it ltac:(lia) Hx') as (st & Hst). exists st. replace (i - k)%nat with (Datatypes.S (i - (k + 1)))%nat by lia. exact Hst.
        + intros i e' Hi He'. destruct (Nat.eq_dec i k) as [->|Hne].
          * destruct Hat as (A1 & A2). rewrite Ee in He'. injection He' as <-. rewrite A1, A2. destruct e.
            -- destruct Hxe as (-> & Hc). easy.
            -- destruct Hxe as ((y & ->) & Hc). split; [now exists y|exact Hc].
          * pose proof (B9 i e' ltac:(lia) He') as B. destruct e'; [exact B|]. destruct B as (B & B'). split; [exact B|]. rewrite B', G2. apply Hmark. lia. }
    cbn [il_set_slots]. rewrite Ee, Ecur. destruct e.
    + (* exhausted *)
      subst t. eapply Hgo with (x := None) (mark := update_nth k (Some c) (il_exh s)) (kept' := il_kept s); try reflexivity.
      * rewrite update_nth_length. apply T. * apply T. * apply T. * easy.
      * intros i Hi. rewrite nth_upd by (rewrite (t_exh _ _ T); lia). destruct (Nat.eqb_spec i k); [easy|easy].
      * easy.
      * split; [easy|]. exists c. rewrite nth_upd, Nat.eqb_refl by (rewrite (t_exh _ _ T); lia). easy.
    + (* active *)
      destruct H0 as (h & p & Eh & Hc & Hp & ->).
      (* the iterator used: a fresh one, or any of the dataset when used *)
      assert (Hset : forall it, (it = h_init h \/ (used = true /\ exists q, rep d it q)) ->
        exists st, (if truthy c then h_set h fuel it c else Ok it) = Ok st /\ rep d st p).
      { intros it [->|(U & q & Hq)].
        - destruct (truthy c) eqn:Etr; [now apply (f_fresh F)|]. pose proof (f_falsy F _ _ _ Hc Etr). subst p. exists (h_init h). split; [easy|now apply (f_init F)].
        - rewrite (f_truthy F _ _ _ U Hc). now apply (f_used F) with (q := q). }
      assert (Hdone : forall it kept', (it = h_init h \/ (used = true /\ exists q, rep d it q)) -> length kept' = cl -> keptR kept' ->
        (forall i y, (k < i)%nat -> nth_error kept' i = Some (Some y) -> nth_error (il_kept s) i = Some (Some y)) ->
        exists s', (match nth_error ds (fst (d, it)) with
          | None => Raise InternalError
          | Some h => let! st := if truthy c then h_set h fuel (snd (d, it)) c else Ok (snd (d, it)) in
              il_set_slots ds keep truthy fuel (k + 1) rest exh
                (mkIl (il_nc s) (il_nd s) (il_idx s) (update_nth k (Some (fst (d, it), st)) (il_its s)) (il_exh s) kept' (il_fut s) (il_pf s) (il_started s))
          end) = Ok s' /\ set_from k ((d, Some c) :: rest) exh slots s s').
      { intros it kept' Hit L HK Hkp. cbn [fst snd]. rewrite Eh. destruct (Hset it Hit) as (st & -> & Hr). cbn [bind].
        eapply Hgo with (x := Some (d, st)) (mark := il_exh s) (kept' := kept'); try reflexivity; try assumption.
        - apply T. - split; [easy|]. now exists h, p. - intros d0 it0 E0. now injection E0 as <- _.
        - split; [eauto|reflexivity]. }
      assert (Hfresh : (match keep, nth k (il_kept s) None with
                        | true, Some (d', it') => if Nat.eqb d' d then Ok (it', update_nth k None (il_kept s))
                             else match nth_error ds d with Some h => Ok ((d, h_init h), il_kept s) | None => Raise IndexError end
                        | _, _ => match nth_error ds d with Some h => Ok ((d, h_init h), il_kept s) | None => Raise IndexError end
                        end) = Ok ((d, h_init h), il_kept s) \/
                       exists it', (used = true /\ exists q, rep d it' q) /\
                        (match keep, nth k (il_kept s) None with
                        | true, Some (d', it') => if Nat.eqb d' d then Ok (it', update_nth k None (il_kept s))
                             else match nth_error ds d with Some h => Ok ((d, h_init h), il_kept s) | None => Raise IndexError end
                        | _, _ => match nth_error ds d with Some h => Ok ((d, h_init h), il_kept s) | None => Raise IndexError end
                        end) = Ok ((d, it'), update_nth k None (il_kept s))).
      { rewrite Eh. destruct keep; [|now left]. destruct (nth k (il_kept s) None) as [[d' [d2 it']]|] eqn:Ek; [|now left].
        assert (Ek' : nth_error (il_kept s) k = Some (Some (d', (d2, it')))).
        { rewrite (nth_error_nth' _ None) by (rewrite (t_kept _ _ T); lia). now rewrite Ek. }
        destruct (Nat.eqb_spec d' d) as [->|]; [|now left]. right. destruct (t_keptR _ _ T _ _ _ _ Ek') as (<- & h' & q & _ & Hq).
        exists it'. split; [|reflexivity]. destruct (t_used _ _ T) as [U|(_ & U)]; [split; [exact U|now exists q]|]. now apply U in Ek'. }
      assert (Hkeep' : length (update_nth k None (il_kept s)) = cl /\ keptR (update_nth k None (il_kept s)) /\
        (forall i y, (k < i)%nat -> nth_error (update_nth k None (il_kept s)) i = Some (Some y) -> nth_error (il_kept s) i = Some (Some y))).
      { split; [rewrite update_nth_length; apply T|]. split.
        - intros i d' d2 it' Hi. rewrite nth_upd in Hi by (rewrite (t_kept _ _ T); lia). destruct (Nat.eqb_spec i k); [easy|]. now apply (t_keptR _ _ T i).
        - intros i y Hi. rewrite nth_upd by (rewrite (t_kept _ _ T); lia). destruct (Nat.eqb_spec i k); [lia|easy]. }
      assert (Hnew : exists s', (let! (it, kept') := (match keep, nth k (il_kept s) None with
                        | true, Some (d', it') => if Nat.eqb d' d then Ok (it', update_nth k None (il_kept s))
                             else match nth_error ds d with Some h => Ok ((d, h_init h), il_kept s) | None => Raise IndexError end
                        | _, _ => match nth_error ds d with Some h => Ok ((d, h_init h), il_kept s) | None => Raise IndexError end
                        end) in
          match nth_error ds (fst it) with
          | None => Raise InternalError
          | Some h => let! st := if truthy c then h_set h fuel (snd it) c else Ok (snd it) in
              il_set_slots ds keep truthy fuel (k + 1) rest exh
                (mkIl (il_nc s) (il_nd s) (il_idx s) (update_nth k (Some (fst it, st)) (il_its s)) (il_exh s) kept' (il_fut s) (il_pf s) (il_started s))
          end) = Ok s' /\ set_from k ((d, Some c) :: rest) exh slots s s').
      { destruct Hfresh as [-> |(it' & Hit & ->)]; cbn [bind].
        - apply Hdone; [now left|apply T|apply T|easy].
        - apply Hdone; [now right|apply Hkeep'|apply Hkeep'|apply Hkeep']. }
      destruct cur as [[d0 it0]|]; [|exact Hnew].
      destruct (Nat.eqb_spec d (nth k (il_idx s) 0%nat)) as [Hsame|Hdiff]; [|exact Hnew].
      destruct (t_slots _ _ T k d0 it0 (le_n _) Ecur) as (Hi & h' & q & Eh' & Hq). apply nth_error_nth with (d := 0%nat) in Hi.
      assert (d0 = d) as -> by congruence. cbn [bind]. apply Hdone; [|apply T|apply T|easy].
      right. destruct (t_used _ _ T) as [U|(U & _)]; [split; [exact U|now exists q]|]. exfalso. now apply (U k (d, it0) (le_n _)).
Qed.

Lemma reads_settable s slots pend : reads s slots pend -> used = true -> settable 0 s.
Proof.
  intros R U. split; try apply R.
  - intros i d it _ Hi. split; [now apply (r_same _ _ _ R _ _ it)|]. destruct (reads_slot _ _ _ R) as (_ & _ & _ & _ & _ & Hlen).
    assert (i < cl)%nat by (rewrite <- (r_its _ _ _ R); apply nth_error_Some; now rewrite Hi).
    destruct (nth_error slots i) as [t|] eqn:Et; [|apply nth_error_None in Et; lia].
    pose proof (proj2 (proj1 (Forall2_nth _ _ _) (r_slots _ _ _ R)) _ _ _ Hi Et) as Hs. destruct t as [[d2 l]|]; [|easy].
    destruct Hs as (_ & h & p & Eh & Hr & _). now exists h, p.
  - now left.
Qed.
Lemma init_settable : settable 0 (il_init ds cycle_length).
Proof.
  split; cbn [il_init il_its il_exh il_kept il_idx]; rewrite ?repeat_length; try easy.
  - intros k d' d it H. apply nth_error_In, repeat_spec in H. discriminate.
  - intros i d it _ H. apply nth_error_In, repeat_spec in H. discriminate.
  - right. split; intros i x _ H; apply nth_error_In, repeat_spec in H; discriminate.
Qed.

Lemma set_ok fuel s c out : (N0 <= fuel)%nat -> settable 0 s -> ck_to_give c out ->
  exists s', il_set ds keep truthy fuel s c = Ok s' /\ to_give s' out /\ il_fut s' = ck_fut c /\
    ((forall k, (k < cl)%nat -> nth_error (il_exh s) k = Some None) -> marks s').
Proof.
  intros Hf T (slots & pend & K & Hr). unfold il_set.
  assert (Hcl : length (combine (ck_idx c) (ck_states c)) = cl) by (rewrite combine_length, (c_idx _ _ _ K), (c_states _ _ _ K); lia).
  assert (Hcomb : forall i d st, nth_error (combine (ck_idx c) (ck_states c)) i = Some (d, st) -> nth_error (ck_idx c) i = Some d /\ nth_error (ck_states c) i = Some st).
  { clear. intros i d st. revert i. generalize (ck_states c). induction (ck_idx c) as [|a l IH]; intros [|b l'] [|i]; cbn; try easy; [now injection 1 as -> ->|apply IH]. }
  destruct (set_slots_ok (ck_exh c) slots fuel Hf (c_exh _ _ _ K) (c_len _ _ _ K) (combine (ck_idx c) (ck_states c)) 0 s Hcl T) as (s' & -> & SF).
  { intros i d st e t H1 H2 H3. apply Hcomb in H1. destruct H1. cbn [Nat.add] in *. now apply (c_slots _ _ _ K i). }
  cbn [bind]. eexists. split; [reflexivity|]. split; [|split; [reflexivity|]].
  - exists slots, pend. split; [|exact Hr].
    split; cbn [il_its il_exh il_kept il_idx il_nc il_nd il_pf il_fut]; try apply SF; try apply K; try easy.
    + apply Forall2_nth. rewrite (sf_its _ _ _ _ _ _ SF), (c_len _ _ _ K). split; [easy|]. intros k x y Hx Hy. apply (sf_slot _ _ _ _ _ _ SF k); [lia|easy|easy].
    + intros k d it Hk. destruct (sf_idx _ _ _ _ _ _ SF k d it ltac:(lia) Hk) as (st & Hst). rewrite Nat.sub_0_r in Hst. now apply Hcomb in Hst.
  - intros Hblank.
    assert (Hlt : forall k x, nth_error (il_its s') k = Some x -> exists e, nth_error (ck_exh c) k = Some e /\ (k < cl)%nat).
    { intros k x Hk. assert (Hk' : (k < cl)%nat) by (rewrite <- (sf_its _ _ _ _ _ _ SF); apply nth_error_Some; now rewrite Hk).
      destruct (nth_error (ck_exh c) k) as [e|] eqn:Ee; [now exists e|]. apply nth_error_None in Ee. rewrite (c_exh _ _ _ K) in Ee. lia. }
    split; cbn [il_its il_exh].
    + destruct (c_ids _ _ _ K) as [I1 I2]. split; cbn [il_idx il_nd]; [exact I1|]. intros k d Hk. left. apply I2. now apply nth_error_In in Hk.
    + intros k x Hk. destruct (Hlt _ _ Hk) as (e & He & Hkc). pose proof (sf_mark _ _ _ _ _ _ SF k e ltac:(lia) He) as Hm. destruct e.
      * destruct Hm as (Hm & _). congruence.
      * destruct Hm as (_ & Hm). rewrite Hm. now apply Hblank.
    + left. intros k Hk. cbn [il_its il_exh] in *. destruct (Hlt _ _ Hk) as (e & He & Hkc). pose proof (sf_mark _ _ _ _ _ _ SF k e ltac:(lia) He) as Hm. destruct e.
      * apply Hm.
      * destruct Hm as ((x & Hm) & _). congruence.
Qed.

(** ** JSON *)
Definition json_of (d : nat) : C -> C := match nth_error ds d with Some h => h_json h | None => fun x => x end.
Lemma json_ok c out : json = true -> ck_to_give c out -> ck_fut c = [] -> ck_to_give (il_json json_of c) out /\ ck_fut (il_json json_of c) = [].
Proof.
  intros J (slots & pend & K & Hr) Hfu. split; [|cbn; now rewrite Hfu]. exists slots, pend. split; [|exact Hr].
  split; cbn [il_json ck_nc ck_nd ck_idx ck_states ck_exh ck_fut]; try apply K.
  - rewrite map_length, combine_length, (c_idx _ _ _ K), (c_states _ _ _ K). lia.
  - intros k d st e t Hd Hst He Ht. rewrite nth_error_map in Hst.
    destruct (nth_error (combine (ck_idx c) (ck_states c)) k) as [[d' st']|] eqn:E; [|easy]. cbn in Hst. injection Hst as <-.
    assert (H : nth_error (ck_idx c) k = Some d' /\ nth_error (ck_states c) k = Some st').
    { revert E. clear. revert k. generalize (ck_states c). induction (ck_idx c) as [|a l IH]; intros [|b l'] [|i]; cbn; try easy; [now injection 1 as -> ->|apply IH]. }
    destruct H as (H1 & H2). rewrite Hd in H1. injection H1 as <-. pose proof (c_slots _ _ _ K k d st' e t Hd H2 He Ht) as Hen.
    destruct st' as [c0|]; [|easy]. cbn in Hen |- *. destruct e; [exact Hen|]. destruct Hen as (h & p & Eh & Hc & Hp & ->).
    exists h, p. split; [easy|]. split; [|easy]. unfold json_of. rewrite Eh. now apply (f_json F).
  - rewrite Hfu. cbn. pose proof (c_pend _ _ _ K) as Hp. now rewrite Hfu in Hp.
Qed.
(** ** get_shard_states *)
Lemma fold_update {X} (entries : list (nat * X)) : NoDup (map fst entries) -> forall (base : list X) d,
  (forall k x, In (k, x) entries -> (k < length base)%nat) ->
  let l := fold_left (fun l e => update_nth (fst e) (snd e) l) entries base in
  length l = length base /\ (forall x, In (d, x) entries -> nth_error l d = Some x) /\
  (~ In d (map fst entries) -> nth_error l d = nth_error base d).
Proof.
  induction entries as [|[k x] rest IH]; intros Hnd base d Hlt; cbn [fold_left fst snd]; [easy|].
  inversion Hnd as [|? ? Hk Hnd']; subst. destruct (IH Hnd' (update_nth k x base) d) as (H1 & H2 & H3).
  { intros k' x' Hin. rewrite update_nth_length. apply (Hlt k' x'). now right. }
  cbn [map fst In] in *. assert (Hkb : (k < length base)%nat) by (apply (Hlt k x); now left).
  split; [now rewrite H1, update_nth_length|]. split.
  - intros y [E|Hy]; [|now apply H2]. injection E as -> ->. rewrite H3 by exact Hk. rewrite nth_upd, Nat.eqb_refl by exact Hkb. reflexivity.
  - intros Hno. rewrite H3 by tauto. rewrite nth_upd by exact Hkb. destruct (Nat.eqb_spec d k); [subst; tauto|reflexivity].
Qed.
Lemma rest_of_in j (l : list A) (d : list (nat * list A)) : NoDup (map fst d) -> In (j, l) d -> rest_of j d = l.
Proof.
  induction d as [|[i m] d IH]; [easy|]. cbn [map fst]. intros Hnd Hin. inversion Hnd as [|? ? Hi Hnd']; subst. rewrite rest_of_cons. cbn [fst snd].
  destruct Hin as [E|Hin].
  - injection E as -> ->. rewrite Nat.eqb_refl, rest_of_absent by exact Hi. apply app_nil_r.
  - destruct (Nat.eqb_spec i j) as [->|Hne]; [|now apply IH]. exfalso. apply Hi. apply in_map_iff. now exists (j, l).
Qed.
Lemma held_ids : forall (idx : list nat) (slots : list (option (nat * list A))), NoDup idx ->
  (forall k d l, nth_error slots k = Some (Some (d, l)) -> nth_error idx k = Some d) ->
  NoDup (map fst (held slots)) /\ forall d, In d (map fst (held slots)) -> exists k l, nth_error slots k = Some (Some (d, l)).
Proof.
  intros idx slots. revert idx. induction slots as [|t slots IH]; intros idx Hnd Hs; [split; [constructor|easy]|].
  destruct idx as [|i idx].
  { assert (E : held (t :: slots) = []).
    { apply held_empty. intros u Hu. apply In_nth_error in Hu as (k & Hk). destruct u as [[d l]|]; [|easy]. apply Hs in Hk. now destruct k. }
    rewrite E. split; [constructor|easy]. }
  inversion Hnd as [|? ? Hi Hnd']; subst. destruct (IH idx Hnd') as (H1 & H2).
  { intros k d l Hk. apply (Hs (Datatypes.S k) d l Hk). }
  assert (Hin : forall d, In d (map fst (held slots)) -> In d idx).
  { intros d Hd. destruct (H2 d Hd) as (k & l & Hk). apply (nth_error_In idx k). exact (Hs (Datatypes.S k) d l Hk). }
  destruct t as [[d l]|]; [rewrite held_some|rewrite held_none].
  - assert (d = i) as ->. { specialize (Hs 0%nat d l eq_refl). cbn in Hs. congruence. }
    cbn [map fst]. split.
    + constructor; [|exact H1]. intros Hd. now apply Hi, Hin.
    + intros d [<-|Hd]; [now exists 0%nat, l|]. destruct (H2 d Hd) as (k & l' & Hk). now exists (Datatypes.S k), l'.
  - split; [exact H1|]. intros d Hd. destruct (H2 d Hd) as (k & l' & Hk). now exists (Datatypes.S k), l'.
Qed.
Lemma pend_fst nd fut pend : pendR nd fut pend -> map fst pend = seq nd (n - nd).
Proof. intros H. unfold pendR in H. remember (seq nd (n - nd)) as q eqn:E. clear E. induction H as [|j d q pend (<- & _) H IH]; cbn; [easy|now rewrite IH]. Qed.
Lemma held_perm (a b : list (option (nat * list A))) : Permutation a b -> Permutation (held a) (held b).
Proof. intros H. induction H as [|x a b H IH|x y a|a b c H1 IH1 H2 IH2]; [easy| | |now rewrite IH1].
  - destruct x; rewrite ?held_some, ?held_none; [now constructor|exact IH].
  - destruct x, y; rewrite ?held_some, ?held_none; rewrite ?held_some; try easy. constructor.
Qed.

Lemma shards_reported s out : marks s -> to_give s out ->
  exists l read, il_get_shards ds cycle_length s = Ok l /\ length l = n /\
    forall d, (d < n)%nat -> exists e c, nth_error l d = Some (e, Some c) /\
      if e then of_dataset d out = [] else crep d c (read d) /\ (read d <= length (lst d))%nat /\ of_dataset d out = skipn (read d) (lst d).
Proof.
  intros M Hg. destruct (get_ok s out M Hg) as (c & s' & E & _ & _ & (slots & pend & K & Hr) & Hfu & Hfc).
  unfold il_get_shards. rewrite E. cbn [bind]. clear E.
  destruct (c_ids _ _ _ K) as [I1 I2].
  assert (Hslot : forall k d l, nth_error slots k = Some (Some (d, l)) -> nth_error (ck_idx c) k = Some d /\ nth_error (ck_exh c) k = Some false /\
    exists st p, nth_error (ck_states c) k = Some (Some st) /\ crep d st p /\ (p <= length (lst d))%nat /\ l = skipn p (lst d)).
  { intros k d l Hk. assert (Hkc : (k < cl)%nat) by (rewrite <- (c_len _ _ _ K); apply nth_error_Some; now rewrite Hk).
    destruct (nth_error (ck_idx c) k) as [d'|] eqn:E1; [|apply nth_error_None in E1; rewrite (c_idx _ _ _ K) in E1; lia].
    destruct (nth_error (ck_states c) k) as [st|] eqn:E2; [|apply nth_error_None in E2; rewrite (c_states _ _ _ K) in E2; lia].
    destruct (nth_error (ck_exh c) k) as [e|] eqn:E3; [|apply nth_error_None in E3; rewrite (c_exh _ _ _ K) in E3; lia].
    pose proof (c_slots _ _ _ K k d' st e _ E1 E2 E3 Hk) as He. destruct st as [st|]; [|easy]. cbn in He. destruct e; [easy|].
    destruct He as (h & p & Eh & Hc & Hp & E). inversion E; subst. split; [easy|]. split; [easy|]. now exists st, p. }
  destruct (held_ids (ck_idx c) slots I1 ltac:(intros k d l Hk; now apply (Hslot k d l))) as (H1 & H2).
  pose proof (pend_fst _ _ _ (c_pend _ _ _ K)) as Hpf.
  set (view := rotate (ck_nc c) slots) in *.
  assert (Hperm : Permutation (held slots ++ pend) (held view ++ pend)) by (apply Permutation_app_tail, held_perm, rotate_perm).
  assert (Hdist : NoDup (map fst (held view ++ pend))).
  { apply (Permutation_NoDup (Permutation_map fst Hperm)). rewrite map_app, Hpf. 
    assert (Hlt : forall d, In d (map fst (held slots)) -> (d < ck_nd c)%nat).
    { intros d Hd. destruct (H2 d Hd) as (k & l & Hk). apply Hslot in Hk as (Hk & _). apply I2. now apply nth_error_In in Hk. }
    clear - H1 Hlt. induction (map fst (held slots)) as [|x l IH]; cbn [app]; [apply seq_NoDup|]. inversion H1; subst. constructor.
    - rewrite in_app_iff, in_seq. intros [Hx|Hx]; [easy|]. specialize (Hlt x (or_introl eq_refl)). lia.
    - apply IH; [assumption|]. intros d Hd. apply Hlt. now right. }
  assert (Hrest : forall d, of_dataset d out = rest_of d (held view ++ pend)).
  { intros d. apply (robin_of_dataset _ _ _ Hr). unfold distinct. now rewrite <- map_app. }
  set (base := map _ (seq 0 n)). set (entries := combine (combine (ck_idx c) (ck_states c)) (ck_exh c)).
  set (entries' := map (fun e => (fst (fst e), (snd e, snd (fst e)))) entries).
  assert (Efold : forall b, fold_left (fun l e => update_nth (fst (fst e)) (snd e, snd (fst e)) l) entries b = fold_left (fun l e => update_nth (fst e) (snd e) l) entries' b).
  { unfold entries'. induction entries as [|e es IH]; intros b; cbn; [easy|apply IH]. }
  rewrite Efold.
  assert (Hent : forall k d st e, nth_error (ck_idx c) k = Some d -> nth_error (ck_states c) k = Some st -> nth_error (ck_exh c) k = Some e -> In (d, (e, st)) entries').
  { intros k d st e A1 A2 A3. unfold entries'. apply in_map_iff. exists ((d, st), e). split; [easy|]. unfold entries. revert k A1 A2 A3. clear.
    generalize (ck_exh c) (ck_states c). induction (ck_idx c) as [|i il IH]; intros [|a la] [|b lb] [|k]; cbn; try easy.
    - intros [= ->] [= ->] [= ->]. now left.
    - intros. right. now apply (IH la lb k). }
  assert (Hfst : map fst entries' = ck_idx c).
  { unfold entries'. rewrite map_map. cbn [fst]. unfold entries. pose proof (c_idx _ _ _ K) as L1. pose proof (c_states _ _ _ K) as L2. pose proof (c_exh _ _ _ K) as L3.
    rewrite <- L1 in L2, L3. clear - L2 L3. revert L2 L3. generalize (ck_exh c) (ck_states c). induction (ck_idx c) as [|i il IH]; intros [|a la] [|b lb]; cbn; try easy.
    intros. f_equal. apply IH; lia. }
  assert (Hbl : length base = n) by (unfold base; now rewrite map_length, seq_length).
  assert (Hin : forall k x, In (k, x) entries' -> (k < length base)%nat).
  { intros k x Hk. rewrite Hbl. pose proof (c_nd _ _ _ K). assert (In k (ck_idx c)) by (rewrite <- Hfst; apply in_map_iff; now exists (k, x)). specialize (I2 k H0). lia. }
  assert (I1' : NoDup (map fst entries')) by now rewrite Hfst.
  pose proof (fun d => fold_update entries' I1' base d Hin) as HF. cbn zeta in HF.
  set (l := fold_left _ entries' base) in *.
  assert (Hlow : forall d, (d < ck_nd c)%nat -> ~ In d (map fst (held slots)) -> of_dataset d out = []).
  { intros d Hd Hno. rewrite Hrest. apply rest_of_absent. intros Hi. apply (Permutation_in _ (Permutation_sym (Permutation_map fst Hperm))) in Hi.
    rewrite map_app, Hpf in Hi. apply in_app_or in Hi as [Hi|Hi]; [easy|]. apply in_seq in Hi. lia. }
  assert (Hin' : forall d m, In (d, m) (held slots ++ pend) -> of_dataset d out = m).
  { intros d m Hi. rewrite Hrest. apply rest_of_in; [exact Hdist|]. now apply (Permutation_in _ Hperm). }
  set (pos := fun d => (length (lst d) - length (of_dataset d out))%nat).
  assert (Hpos : forall d p, (p <= length (lst d))%nat -> of_dataset d out = skipn p (lst d) -> pos d = p).
  { intros d p Hp Eo. unfold pos. rewrite Eo, skipn_length. lia. }
  exists l, pos. split; [reflexivity|]. split; [rewrite <- Hbl; apply (HF 0%nat)|]. intros d Hd. destruct (HF d) as (_ & HF1 & HF2).
  destruct (in_dec Nat.eq_dec d (ck_idx c)) as [Hi|Hi].
  - apply In_nth_error in Hi as (k & Hk). assert (Hkc : (k < cl)%nat) by (rewrite <- (c_idx _ _ _ K); apply nth_error_Some; now rewrite Hk).
    destruct (nth_error (ck_states c) k) as [st|] eqn:E2; [|apply nth_error_None in E2; rewrite (c_states _ _ _ K) in E2; lia].
    destruct (nth_error (ck_exh c) k) as [e|] eqn:E3; [|apply nth_error_None in E3; rewrite (c_exh _ _ _ K) in E3; lia].
    destruct (nth_error slots k) as [t|] eqn:E4; [|apply nth_error_None in E4; rewrite (c_len _ _ _ K) in E4; lia].
    pose proof (c_slots _ _ _ K k d st e t Hk E2 E3 E4) as He. destruct st as [st|]; [|easy]. exists e, st.
    split; [apply HF1, (Hent k); assumption|]. cbn in He. destruct e.
    + subst t. apply Hlow; [apply I2; now apply nth_error_In in Hk|]. intros Hx. destruct (H2 d Hx) as (k' & m & Hk'). pose proof (Hslot _ _ _ Hk') as (Hi & _).
      assert (k' = k) as ->; [|congruence]. apply (proj1 (NoDup_nth_error _) I1); [apply nth_error_Some; now rewrite Hi|congruence].
    + destruct He as (h & p & Eh & Hc & Hp & ->).
      assert (Ho : of_dataset d out = skipn p (lst d)).
      { apply Hin'. apply in_or_app. left. unfold held. apply in_flat_map. exists (Some (d, skipn p (lst d))). split; [now apply nth_error_In in E4|now left]. }
      rewrite (Hpos d p Hp Ho). auto.
  - rewrite HF2 by now rewrite Hfst. unfold base. rewrite nth_error_map_seq by exact Hd. cbn [Nat.add]. unfold start_state.
    destruct (nth_error ds d) as [h|] eqn:Eh; [|apply nth_error_None in Eh; lia].
    destruct (Nat.leb_spec (ck_nd c) d) as [Hnd|Hnd].
    + assert (Hp : exists m, In (d, m) pend /\ futR (ck_fut c) d (d, m)).
      { pose proof (c_pend _ _ _ K) as Hp. unfold pendR in Hp.
        assert (Hq : In d (seq (ck_nd c) (n - ck_nd c))) by (apply in_seq; lia). revert Hp Hq. generalize (seq (ck_nd c) (n - ck_nd c)). clear.
        intros q Hp. induction Hp as [|j [i m] q pend Hj Hp IH]; [easy|]. intros [<-|Hq].
        - exists m. destruct Hj as (Ej & Hj). cbn in Ej. subst i. split; [now left|]. split; [easy|exact Hj].
        - destruct (IH Hq) as (m' & Hm & Hm'). exists m'. split; [now right|exact Hm']. }
      destruct Hp as (m & Hm & _ & p & Em & Hp & Hst). cbn in Em. subst m.
      assert (Ho : of_dataset d out = skipn p (lst d)) by (apply Hin', in_or_app; now right).
      rewrite Hfc, <- Hfu in Hst. rewrite (Hpos d p Hp Ho).
      destruct (fd_get (KInt d) (il_fut s')) as [st|].
      * exists false, st. auto.
      * exists false, (h_get h (h_init h)). subst p. split; [reflexivity|]. split; [apply (f_get F _ h _ _ Eh), (f_init F _ _ Eh)|]. auto.
    + exists true, (h_get h (h_init h)). split; [reflexivity|]. apply Hlow; [exact Hnd|]. intros Hx. destruct (H2 d Hx) as (k & m & Hk). apply Hslot in Hk as (Hk & _).
      apply nth_error_In in Hk. easy.
Qed.
End Proofs.

(** ** Any iterators *)

From Coq Require Import Eqdep_dec.
From Verif Require Import IterLaw IterMany_proofs.

Lemma cast_same {X : nat -> Type} d (x : X d) : cast d (existT X d x) = Some x.
Proof.
  unfold cast. cbn [projT1 projT2]. destruct (Nat.eq_dec d d) as [e|]; [|easy]. f_equal.
  assert (E : e = eq_refl) by (apply UIP_dec; apply Nat.eq_dec). rewrite E. reflexivity.
Qed.

Lemma law_after {A} (it : Iter A) l fin used json N rep crep fuel : NewLaw it l fin used json N rep crep -> (N <= fuel)%nat ->
  forall k p s, rep s p -> (p + k <= length l)%nat -> rep (after it fuel k s) (p + k)%nat.
Proof.
  intros L Hf. induction k as [|k IH]; intros p s Hr Hk; [now rewrite Nat.add_0_r|]. cbn [after].
  destruct (nth_error l p) as [a|] eqn:E; [|apply nth_error_None in E; lia].
  destruct (new_next L fuel s p a Hf Hr E) as (s' & En & Hr'). rewrite En. cbn [snd].
  replace (p + Datatypes.S k)%nat with (Datatypes.S p + k)%nat by lia. apply IH; [exact Hr'|lia].
Qed.
Lemma choose_laws {A} used json (ps : list (Iter A)) ls : Forall2 (fun p l => renewable p l true used json) ps ls ->
  exists N (rep : forall d, ist (nth_it ps d) -> nat -> Prop) (crep : forall d, ick (nth_it ps d) -> nat -> Prop),
    forall d, (d < length ps)%nat -> NewLaw (nth_it ps d) (nth d ls []) true used json N (rep d) (crep d).
Proof.
  induction 1 as [|p l ps ls (N & rep & crep & L) _ (M & reps & creps & IH)].
  - exists 0%nat, (fun d _ _ => True), (fun d _ _ => True). intros d Hd. cbn in Hd. lia.
  - exists (Nat.max N M), (fun d => match d return ist (nth_it (p :: ps) d) -> nat -> Prop with O => rep | S d' => reps d' end),
      (fun d => match d return ick (nth_it (p :: ps) d) -> nat -> Prop with O => crep | S d' => creps d' end).
    intros [|d] Hd.
    + cbn. apply (NewLaw_mono _ _ _ _ _ N); [lia|exact L].
    + cbn in *. apply (NewLaw_mono _ _ _ _ _ M); [lia|]. apply IH. lia.
Qed.

Lemma nth_embed {A} (ps : list (Iter A)) d h : nth_error (embed ps) d = Some h -> h = embed1 ps d /\ (d < length ps)%nat.
Proof.
  intros H. assert (Hd : (d < length ps)%nat).
  { assert (d < length (embed ps))%nat by (apply nth_error_Some; now rewrite H). unfold embed in *. rewrite map_length, seq_length in *. easy. }
  split; [|exact Hd]. unfold embed in H. rewrite nth_error_map_seq in H by exact Hd. now injection H as <-.
Qed.
Lemma embed_length {A} (ps : list (Iter A)) : length (embed ps) = length ps.
Proof. unfold embed. now rewrite map_length, seq_length. Qed.

Lemma embed_new_family {A} used json (ps : list (Iter A)) ls truthy : Forall2 (fun p l => renewable p l true used json) ps ls ->
  (forall c, truthy c = true) ->
  exists N rep crep, family (embed ps) truthy ls used json N rep crep /\
    forall d k fuel, (d < length ps)%nat -> (N <= fuel)%nat -> (k <= length (nth d ls []))%nat ->
    crep d (existT _ d (get_state (nth_it ps d) (after (nth_it ps d) fuel k (init (nth_it ps d))))) k.
Proof.
  intros HL Ht. pose proof (Forall2_length _ _ _ HL) as Hlen. destruct (choose_laws _ _ _ _ HL) as (N & rep & crep & L).
  exists N, (fun d s p => (d < length ps)%nat /\ exists x, s = existT _ d x /\ rep d x p),
    (fun d c p => (d < length ps)%nat /\ exists x, c = existT _ d x /\ crep d x p).
  assert (Hlive : forall d p, (p <= length (nth d ls []))%nat -> live (nth d ls []) true p) by (intros; unfold live; lia).
  split; [|intros d k fuel Hd Hf Hk; split; [exact Hd|]; eexists; split; [reflexivity|]; apply (new_get (L d Hd));
           apply (law_after _ _ _ _ _ _ _ _ _ (L d Hd) Hf k 0%nat); [apply (new_init (L d Hd))|exact Hk]].
  split.
  - rewrite embed_length. congruence.
  - intros d h H. apply nth_embed in H as [-> Hd]. split; [exact Hd|]. eexists. split; [reflexivity|]. apply (new_init (L d Hd)).
  - intros d s p (Hd & x & -> & Hr). apply (new_le (L d Hd) _ _ Hr).
  - intros d h fuel s p a H Hf (Hd & x & -> & Hr) Ha. apply nth_embed in H as [-> _].
    destruct (new_next (L d Hd) fuel x p a Hf Hr Ha) as (x' & E & Hr'). exists (existT _ d x'). cbn [embed1 h_next]. rewrite cast_same, E.
    split; [reflexivity|]. split; [exact Hd|]. exists x'. split; [reflexivity|]. now rewrite Nat.add_1_r.
  - intros d h fuel s H Hf (Hd & x & -> & Hr). apply nth_embed in H as [-> _].
    destruct (new_stop (L d Hd) fuel x Hf eq_refl Hr) as (x' & E & Hr'). exists (existT _ d x'). cbn [embed1 h_next]. rewrite cast_same, E.
    split; [reflexivity|]. split; [exact Hd|]. now exists x'.
  - intros d h s p H (Hd & x & -> & Hr). apply nth_embed in H as [-> _]. cbn [embed1 h_get]. rewrite cast_same. split; [exact Hd|].
    eexists. split; [reflexivity|]. now apply (new_get (L d Hd)).
  - intros d h c p H J (Hd & x & -> & Hr). apply nth_embed in H as [-> _]. cbn [embed1 h_json]. rewrite cast_same. split; [exact Hd|].
    eexists. split; [reflexivity|]. now apply (new_json (L d Hd)).
  - intros d h fuel c p H Hf (Hd & x & -> & Hc) Hp. apply nth_embed in H as [-> _]. cbn [embed1 h_set h_init]. rewrite !cast_same.
    destruct (new_fresh (L d Hd) fuel x p Hf Hc (Hlive _ _ Hp)) as (x' & -> & Hr'). cbn [bind]. eexists. split; [reflexivity|].
    split; [exact Hd|]. now exists x'.
  - intros d h fuel s q c p H Hf U (_ & y & -> & Hr) (Hd & x & -> & Hc) Hp. apply nth_embed in H as [-> _]. cbn [embed1 h_set]. rewrite !cast_same.
    destruct (new_used (L d Hd) fuel y q x p Hf U Hr Hc (Hlive _ _ Hp)) as (x' & -> & Hr'). cbn [bind]. eexists. split; [reflexivity|].
    split; [exact Hd|]. now exists x'.
  - intros d c p _ Hc. rewrite Ht in Hc. discriminate.
  - intros d c p _ _. apply Ht.
Qed.

Lemma all_renewable {A} (ps : list (Iter A)) ls fin used json :
  Forall2 (fun p l => lawful p l fin used json) ps ls -> Forall2 (fun p l => renewable p l fin used json) ps ls.
Proof. induction 1 as [|p l ps ls H HL IH]; constructor; [|exact IH]. now apply lawful_renewable. Qed.
Lemma embed_family {A} used json (ps : list (Iter A)) ls truthy : Forall2 (fun p l => lawful p l true used json) ps ls ->
  (forall c, truthy c = true) ->
  exists N rep crep, family (embed ps) truthy ls used json N rep crep /\
    forall d k fuel, (d < length ps)%nat -> (N <= fuel)%nat -> (k <= length (nth d ls []))%nat ->
    crep d (existT _ d (get_state (nth_it ps d) (after (nth_it ps d) fuel k (init (nth_it ps d))))) k.
Proof.
  intros HL. apply embed_new_family. now apply all_renewable.
Qed.

(** ** set_shard_states *)

Lemma in_firstn_in {X} (l : list X) k x : In x (firstn k l) -> In x l.
Proof. intros H. rewrite <- (firstn_skipn k l). apply in_or_app. now left. Qed.
Lemma in_skipn_in {X} (l : list X) k x : In x (skipn k l) -> In x l.
Proof. intros H. rewrite <- (firstn_skipn k l). apply in_or_app. now right. Qed.
Lemma skipn_map_fst {X Y} (l : list (X * Y)) k : map fst (skipn k l) = skipn k (map fst l).
Proof. revert l. induction k as [|k IH]; intros [|x l]; cbn; easy || apply IH. Qed.
Lemma NoDup_app_intro' {X} (a b : list X) : NoDup a -> NoDup b -> (forall x, In x a -> In x b -> False) -> NoDup (a ++ b).
Proof.
  induction 1 as [|x a Hx Ha IH]; intros Hb H; [easy|]. cbn. constructor.
  - rewrite in_app_iff. intros [Hi|Hi]; [easy|]. apply (H x); [now left|exact Hi].
  - apply IH; [exact Hb|]. intros y Hy. apply H. now right.
Qed.
Lemma combine_seq_fst {X} (l : list X) i : map fst (combine (seq i (length l)) l) = seq i (length l).
Proof. revert i. induction l as [|x l IH]; intros i; cbn; [easy|]. f_equal. apply IH. Qed.
Section Shards.
Context {S C A : Type}.
Variable ds : list (hiter S C A).
Variable cycle_length : nat.
Variable truthy : C -> bool.
Variable ls : list (list A).
Variable crep : nat -> C -> nat -> Prop.
Variable shards : list (bool * C).
Variable read : nat -> nat.
Notation cl := (Interleave.cl ds cycle_length).
Notation lst d := (nth d ls []).
Hypothesis Hlen : length shards = length ds.
Hypothesis Hls : length ls = length ds.
Hypothesis Hcl : (0 < cl)%nat.
Hypothesis Htruthy : forall c, truthy c = true.
Hypothesis Hstates : forall d c, nth_error shards d = Some (false, c) -> crep d c (read d) /\ (read d <= length (lst d))%nat.
Definition exhausted_shard (d : nat) : bool := match nth_error shards d with Some (e, _) => e | None => true end.
Definition active_shards : list nat := filter (fun d => negb (exhausted_shard d)) (seq 0 (length shards)).
Definition enumerated := combine (seq 0 (length shards)) shards.

Lemma enumerated_in d e c : In (d, (e, c)) enumerated <-> nth_error shards d = Some (e, c).
Proof.
  unfold enumerated. assert (H : forall l i, In (d, (e, c)) (combine (seq i (length l)) l) <-> (i <= d)%nat /\ nth_error l (d - i) = Some (e, c)).
  { induction l as [|x l IH]; intros i; cbn [length seq combine].
    - split; [easy|]. intros [_ H]. destruct (d - i)%nat; discriminate.
    - cbn [In]. rewrite IH. split.
      + intros [E|[H1 H2]]; [injection E as -> ->; split; [lia|]; now rewrite Nat.sub_diag|].
        split; [lia|]. replace (d - i)%nat with (Datatypes.S (d - Datatypes.S i)) by lia. exact H2.
      + intros [H1 H2]. destruct (Nat.eq_dec d i) as [->|Hne]; [left; rewrite Nat.sub_diag in H2; cbn in H2; congruence|].
        right. split; [lia|]. replace (d - i)%nat with (Datatypes.S (d - Datatypes.S i)) in H2 by lia. exact H2. }
  rewrite H, Nat.sub_0_r. split; [easy|]. intros; split; [lia|easy].
Qed.
Lemma enumerated_fst : map fst enumerated = seq 0 (length shards).
Proof. apply combine_seq_fst. Qed.
Lemma enumerated_filter (f : bool -> bool) (g : nat -> bool) : (forall d e c, nth_error shards d = Some (e, c) -> g d = f e) ->
  map fst (filter (fun e => f (fst (snd e))) enumerated) = filter g (seq 0 (length shards)).
Proof.
  intros H. rewrite <- enumerated_fst. assert (H' : forall d e c, In (d, (e, c)) enumerated -> g d = f e).
  { intros d e c Hin. apply (H d e c), enumerated_in, Hin. }
  revert H'. generalize enumerated. clear H. induction l as [|[d [e c]] l IH]; intros H'; [easy|]. cbn [map filter fst snd]. rewrite (H' d e c) by (now left).
  assert (IH' : map fst (filter (fun e => f (fst (snd e))) l) = filter g (map fst l)) by (apply IH; intros d' e' c' Hin; apply (H' d' e' c'); now right).
  destruct (f e); cbn [map fst]; now rewrite IH'.
Qed.
Lemma active_fst : map fst (filter (fun e => negb (fst (snd e))) enumerated) = active_shards.
Proof. apply enumerated_filter. intros d e c H. unfold exhausted_shard. now rewrite H. Qed.
Lemma filter_split_length {X} (f : X -> bool) l : (length (filter f l) + length (filter (fun x => negb (f x)) l) = length l)%nat.
Proof. induction l as [|x l IH]; [easy|]. cbn. destruct (f x); cbn; lia. Qed.
Lemma active_sorted m : forall l, Sorted.StronglySorted lt l -> Sorted.StronglySorted lt (filter m l).
Proof.
  induction 1 as [|x l Hl IH Hx]; cbn; [constructor|]. destruct (m x); [|exact IH]. constructor; [exact IH|].
  rewrite Forall_forall in *. intros y Hy. apply filter_In in Hy as [Hy _]. auto.
Qed.
Lemma seq_sorted i k : Sorted.StronglySorted lt (seq i k).
Proof. revert i. induction k as [|k IH]; intros i; cbn; constructor; [apply IH|]. apply Forall_forall. intros y Hy. apply in_seq in Hy. lia. Qed.
Lemma sorted_firstn_below k l : Sorted.StronglySorted lt l -> forall x y, In x (firstn k l) -> In y (skipn k l) -> (x < y)%nat.
Proof.
  revert l. induction k as [|k IH]; intros l Hl x y Hx Hy; [easy|]. destruct l as [|z l]; [easy|]. inversion Hl as [|? ? Hl' Hz]; subst.
  cbn in Hx, Hy. destruct Hx as [<-|Hx].
  - rewrite Forall_forall in Hz. apply Hz. rewrite <- (firstn_skipn k l). apply in_or_app. now right.
  - now apply (IH l).
Qed.
Lemma sorted_NoDup l : Sorted.StronglySorted lt l -> NoDup l.
Proof.
  induction 1 as [|x l Hl IH Hx]; constructor; [|exact IH]. intros Hin. rewrite Forall_forall in Hx. specialize (Hx x Hin). lia.
Qed.
Lemma list_max_in l : l <> [] -> In (list_max l) l.
Proof.
  induction l as [|x l IH]; [easy|]. intros _. destruct l as [|y l]; [left; cbn; lia|].
  specialize (IH ltac:(easy)). change (list_max (x :: y :: l)) with (Nat.max x (list_max (y :: l))).
  destruct (Nat.max_spec x (list_max (y :: l))) as [[_ ->]|[_ ->]]; [now right|now left].
Qed.
Lemma list_max_above l x : In x l -> (x <= list_max l)%nat.
Proof. intros H. pose proof (proj1 (list_max_le l (list_max l)) (le_n _)) as Hf. rewrite Forall_forall in Hf. now apply Hf. Qed.

Definition in_use := firstn cl (filter (fun e => negb (fst (snd e))) enumerated).
Definition fillers := firstn (cl - length in_use) (filter (fun e => fst (snd e)) enumerated).
Definition next_dataset : nat := match in_use with [] => 0%nat | _ => (list_max (map fst in_use) + 1)%nat end.

Hypothesis Hbefore : forall d, (d < length shards)%nat -> exhausted_shard d = true -> exists d', In d' (firstn cl active_shards) /\ (d < d')%nat.

Lemma in_use_fst : map fst in_use = firstn cl active_shards.
Proof. unfold in_use. rewrite <- firstn_map. f_equal. apply active_fst. Qed.
Lemma in_use_in d e c : In (d, (e, c)) in_use -> e = false /\ nth_error shards d = Some (e, c).
Proof.
  intros H. assert (H' : In (d, (e, c)) (filter (fun e => negb (fst (snd e))) enumerated)) by (apply (in_firstn_in _ cl); exact H).
  apply filter_In in H' as [H1 H2]. cbn in H2. split; [now destruct e|]. now apply enumerated_in.
Qed.
Lemma fillers_in d e c : In (d, (e, c)) fillers -> e = true /\ nth_error shards d = Some (e, c).
Proof.
  intros H. assert (H' : In (d, (e, c)) (filter (fun e => fst (snd e)) enumerated)) by (apply (in_firstn_in _ (cl - length in_use)); exact H).
  apply filter_In in H' as [H1 H2]. cbn in H2. split; [now destruct e|]. now apply enumerated_in.
Qed.
Lemma cl_shards : (cl <= length shards)%nat.
Proof. unfold Interleave.cl in *. lia. Qed.
Lemma slots_length : (length in_use + length fillers = cl)%nat.
Proof.
  unfold fillers, in_use. rewrite !firstn_length.
  pose proof (filter_split_length (fun e : nat * (bool * C) => fst (snd e)) enumerated) as H.
  assert (He : length enumerated = length shards) by (unfold enumerated; rewrite combine_length, seq_length; lia).
  rewrite He in H. pose proof cl_shards. lia.
Qed.
Lemma active_ne : active_shards <> [].
Proof.
  intros E. pose proof cl_shards. assert (Hd : (0 < length shards)%nat) by lia.
  destruct (exhausted_shard 0) eqn:E0.
  - destruct (Hbefore 0%nat Hd E0) as (d' & Hin & _). rewrite E, firstn_nil in Hin. easy.
  - assert (Hin : In 0%nat active_shards). { apply filter_In. split; [apply in_seq; lia|]. now rewrite E0. } now rewrite E in Hin.
Qed.
Lemma in_use_ne : in_use <> [].
Proof.
  intros E. assert (H : firstn cl active_shards = []) by (rewrite <- in_use_fst, E; easy).
  pose proof active_ne as Ha. revert H Ha Hcl. clear. intros H Ha Hcl. destruct active_shards; [easy|]. now destruct cl; [lia|].
Qed.
Lemma next_spec : next_dataset = (list_max (firstn cl active_shards) + 1)%nat.
Proof. unfold next_dataset. rewrite in_use_fst. pose proof in_use_ne. now destruct in_use. Qed.
Lemma max_in : In (list_max (firstn cl active_shards)) (firstn cl active_shards).
Proof. apply list_max_in. rewrite <- in_use_fst. pose proof in_use_ne. now destruct in_use. Qed.
Lemma active_lt d : In d active_shards -> (d < length shards)%nat /\ exhausted_shard d = false.
Proof. intros H. apply filter_In in H as [H1 H2]. apply in_seq in H1. split; [lia|]. now destruct (exhausted_shard d). Qed.
Lemma next_le : (next_dataset <= length ds)%nat.
Proof.
  rewrite next_spec. pose proof max_in as H. assert (H' : In (list_max (firstn cl active_shards)) active_shards) by (apply (in_firstn_in _ cl); exact H).
  apply active_lt in H' as [H' _]. lia.
Qed.
Lemma later_active j : (next_dataset <= j < length ds)%nat -> In j (skipn cl active_shards) /\ exists c, nth_error shards j = Some (false, c).
Proof.
  intros Hj. rewrite next_spec in Hj. assert (He : exhausted_shard j = false).
  { destruct (exhausted_shard j) eqn:E; [|easy]. destruct (Hbefore j ltac:(lia) E) as (d' & Hin & Hlt).
    apply list_max_above in Hin. lia. }
  assert (Hin : In j active_shards). { apply filter_In. split; [apply in_seq; lia|]. now rewrite He. }
  split.
  - rewrite <- (firstn_skipn cl active_shards) in Hin. apply in_app_or in Hin as [Hin|Hin]; [|exact Hin].
    apply list_max_above in Hin. lia.
  - unfold exhausted_shard in He. destruct (nth_error shards j) as [[e c]|] eqn:E; [|easy]. subst e. now exists c.
Qed.

Definition shard_slots : list (option (nat * list A)) :=
  map (fun e => Some (fst e, skipn (read (fst e)) (lst (fst e)))) in_use ++ map (fun _ => None) fillers.
Definition shard_pend : list (nat * list A) :=
  map (fun j => (j, skipn (read j) (lst j))) (seq next_dataset (length ds - next_dataset)).

Lemma find_key j c (l : list (nat * (bool * C))) : (forall d e c', In (d, (e, c')) l -> nth_error shards d = Some (e, c')) ->
  In j (map fst l) -> nth_error shards j = Some (false, c) ->
  fd_get (KInt j) (map (fun e => (KInt (fst e), snd (snd e))) l) = Some c.
Proof.
  intros Hl Hin Hj. unfold fd_get. induction l as [|[d [e c']] l IH]; [easy|]. cbn [map find fst snd fkey_eqb].
  destruct (Nat.eqb_spec d j) as [E|Hne].
  - subst d. specialize (Hl j e c' (or_introl eq_refl)). cbn [snd]. congruence.
  - apply IH; [|destruct Hin as [Hin|Hin]; [easy|exact Hin]]. intros. apply Hl. now right.
Qed.
Lemma shards_stand_for : stands_for ds cycle_length ls crep (shards_ck ds cycle_length truthy shards) shard_slots shard_pend.
Proof.
  pose proof slots_length as Hsl.
  split; unfold shards_ck; cbn [ck_idx ck_states ck_exh ck_nc ck_nd ck_fut]; fold enumerated; fold in_use; fold fillers; fold next_dataset.
  - rewrite app_length, !map_length. exact Hsl.
  - rewrite map_length, app_length. exact Hsl.
  - rewrite app_length, !map_length. exact Hsl.
  - exact Hcl.
  - exact next_le.
  - unfold shard_slots. rewrite app_length, !map_length. exact Hsl.
  - intros k d st e t H1 H2 H3 H4. unfold shard_slots in H4. rewrite map_app in H2.
    destruct (Nat.lt_ge_cases k (length in_use)) as [Hk|Hk].
    + rewrite nth_error_app1 in H1, H2, H3, H4 by (rewrite map_length; exact Hk). rewrite nth_error_map in H1, H2, H3, H4.
      destruct (nth_error in_use k) as [[d0 [e0 c0]]|] eqn:E; [|easy]. cbn in H1, H2, H3, H4. injection H1 as <-. injection H2 as <-. injection H3 as <-. injection H4 as <-.
      apply nth_error_In, in_use_in in E as [-> E]. destruct (Hstates _ _ E) as [Hc Hr]. cbn [entR].
      assert (Hd : (d0 < length ds)%nat) by (rewrite <- Hlen; apply nth_error_Some; now rewrite E).
      destruct (nth_error ds d0) as [h|] eqn:Eh; [|apply nth_error_None in Eh; lia].
      exists h, (read d0). auto.
    + rewrite nth_error_app2 in H1, H2, H3, H4 by (rewrite map_length; exact Hk). rewrite map_length in H1, H2, H3, H4. rewrite nth_error_map in H1, H2, H3, H4.
      destruct (nth_error fillers (k - length in_use)) as [[d0 [e0 c0]]|] eqn:E; [|easy]. cbn in H1, H2, H3, H4. injection H2 as <-. injection H3 as <-. injection H4 as <-.
      reflexivity.
  - unfold pendR, shard_pend. assert (H : forall l, (forall j, In j l -> (next_dataset <= j < length ds)%nat) ->
      Forall2 (futR ls crep (map (fun e => (KInt (fst e), snd (snd e))) (filter (fun e => truthy (snd (snd e))) (skipn cl (filter (fun e => negb (fst (snd e))) enumerated))))) l
        (map (fun j => (j, skipn (read j) (lst j))) l)).
    { induction l as [|j l IH]; intros Hj; cbn [map]; constructor; [|apply IH; intros; apply Hj; now right].
      specialize (Hj j (or_introl eq_refl)). destruct (later_active j Hj) as (Hin & c & Ec). destruct (Hstates _ _ Ec) as [Hc Hr].
      split; [easy|]. exists (read j). split; [easy|]. split; [exact Hr|].
      rewrite (find_key j c); [exact Hc| | |exact Ec].
      - intros d e c' H. apply filter_In in H as [H _]. apply in_skipn_in in H. apply filter_In in H as [H _]. now apply enumerated_in.
      - assert (E : forall l' : list (nat * (bool * C)), filter (fun e => truthy (snd (snd e))) l' = l').
        { induction l' as [|x l' IHl]; [easy|]. cbn [filter]. now rewrite Htruthy, IHl. }
        rewrite E, skipn_map_fst, active_fst. exact Hin. }
    apply H. intros j Hj. apply in_seq in Hj. lia.
  - assert (Hs : Sorted.StronglySorted lt active_shards) by (apply active_sorted, seq_sorted).
    assert (Hfill : map fst fillers = firstn (cl - length in_use) (filter exhausted_shard (seq 0 (length shards)))).
    { unfold fillers. rewrite <- firstn_map. f_equal. apply (enumerated_filter (fun e => e)). intros d e c E. unfold exhausted_shard. now rewrite E. }
    assert (Hfe : forall d, In d (map fst fillers) -> (d < length shards)%nat /\ exhausted_shard d = true).
    { intros d Hd. rewrite Hfill in Hd. apply in_firstn_in in Hd. apply filter_In in Hd as [Hd He]. apply in_seq in Hd. split; [lia|exact He]. }
    split.
    + apply NoDup_app_intro'.
      * rewrite in_use_fst. apply sorted_NoDup in Hs. rewrite <- (firstn_skipn cl active_shards) in Hs. now apply nodup_app_inv in Hs as (Hs & _).
      * rewrite Hfill. assert (Hn : NoDup (filter exhausted_shard (seq 0 (length shards)))) by apply NoDup_filter, seq_NoDup.
        rewrite <- (firstn_skipn (cl - length in_use)) in Hn. now apply nodup_app_inv in Hn as (Hn & _).
      * intros x Hx Hx'. rewrite in_use_fst in Hx. apply in_firstn_in, active_lt in Hx as [_ Hx]. apply Hfe in Hx' as [_ Hx']. congruence.
    + intros d Hd. rewrite next_spec. apply in_app_or in Hd as [Hd|Hd].
      * rewrite in_use_fst in Hd. apply list_max_above in Hd. lia.
      * apply Hfe in Hd as [Hd He]. destruct (Hbefore d Hd He) as (d' & Hd' & Hlt). apply list_max_above in Hd'. lia.
Qed.
Lemma shard_held : held shard_slots = map (fun d => (d, skipn (read d) (lst d))) (firstn cl active_shards).
Proof.
  unfold shard_slots. rewrite held_app, <- in_use_fst, map_map.
  assert (H1 : forall l : list (nat * (bool * C)), @held A (map (fun _ => None) l) = []) by (induction l; [easy|]; cbn [map]; now rewrite held_none).
  rewrite H1, app_nil_r. induction in_use as [|x l IH]; [easy|]. cbn [map]. rewrite held_some. rewrite IH. reflexivity.
Qed.
Lemma shard_distinct : distinct shard_slots shard_pend.
Proof.
  unfold distinct. rewrite shard_held. unfold shard_pend. rewrite !map_map. cbn [fst]. rewrite !map_id.
  assert (Hs : Sorted.StronglySorted lt active_shards) by (apply active_sorted, seq_sorted).
  apply NoDup_app_intro'.
  - apply sorted_NoDup in Hs. rewrite <- (firstn_skipn cl active_shards) in Hs. now apply nodup_app_inv in Hs as (Hs & _).
  - apply seq_NoDup.
  - intros x Hx Hx'. apply in_seq in Hx'. rewrite next_spec in Hx'. apply list_max_above in Hx. lia.
Qed.
Lemma rest_of_map j l : NoDup l -> rest_of j (map (fun d => (d, skipn (read d) (lst d))) l) = if existsb (Nat.eqb j) l then skipn (read j) (lst j) else [].
Proof.
  induction 1 as [|d l Hd Hl IH]; [easy|]. cbn [map existsb]. rewrite rest_of_cons, IH. cbn [fst snd].
  destruct (Nat.eqb_spec d j) as [E|Hne].
  - subst d. rewrite Nat.eqb_refl. cbn [orb]. assert (existsb (Nat.eqb j) l = false) as ->; [|now rewrite app_nil_r].
    destruct (existsb (Nat.eqb j) l) eqn:E; [|easy]. apply existsb_exists in E as (x & Hx & E). apply Nat.eqb_eq in E. now subst x.
  - assert (Nat.eqb j d = false) as -> by (apply Nat.eqb_neq; congruence). easy.
Qed.
Lemma shard_rest j : (j < length shards)%nat ->
  rest_of j (held shard_slots ++ shard_pend) = if exhausted_shard j then [] else skipn (read j) (lst j).
Proof.
  intros Hj. pose proof shard_distinct as Hd. unfold distinct in Hd. rewrite shard_held in *. unfold shard_pend in *. rewrite <- map_app.
  rewrite !map_map in Hd. cbn [fst] in Hd. rewrite !map_id in Hd. rewrite rest_of_map by exact Hd.
  destruct (exhausted_shard j) eqn:E, (existsb _ _) eqn:E2; try easy; exfalso.
  - apply existsb_exists in E2 as (x & Hx & Ex). apply Nat.eqb_eq in Ex. subst x. apply in_app_or in Hx as [Hx|Hx].
    + apply in_firstn_in, active_lt in Hx as [_ Hx]. congruence.
    + apply in_seq in Hx. destruct (later_active j ltac:(lia)) as (_ & c & Ec). unfold exhausted_shard in E. now rewrite Ec in E.
  - apply not_true_iff_false in E2. apply E2. apply existsb_exists. exists j. split; [|apply Nat.eqb_refl].
    apply in_or_app. destruct (Nat.lt_ge_cases j next_dataset) as [Hl|Hl]; [left|right; apply in_seq; lia].
    assert (Hin : In j active_shards). { apply filter_In. split; [apply in_seq; lia|]. now rewrite E. }
    rewrite <- (firstn_skipn cl active_shards) in Hin. apply in_app_or in Hin as [Hin|Hin]; [exact Hin|exfalso].
    assert (Hs : Sorted.StronglySorted lt active_shards) by (apply active_sorted, seq_sorted).
    pose proof (sorted_firstn_below cl _ Hs _ j max_in Hin). rewrite next_spec in Hl. lia.
Qed.
End Shards.
