(** C51: the nested structure helpers. *)
From Verif Require Import Base ListFacts Tree.

(** * Specification *)
(** The substructure found by following a path of indices and keys. *)
Fixpoint at_path {A} (t : tree A) (p : list step_of) : option (tree A) :=
  match p with
  | [] => Some t
  | s :: p' =>
      match t, s with
      | Seq _ items, Idx i => match nth_error items i with Some u => at_path u p' | None => None end
      | Dict _ items, Key k => match lookup k items with Some u => at_path u p' | None => None end
      | _, _ => None
      end
  end.
Inductive kind : Type := KLeaf | KSeq (tag : nat) | KDict (tag : nat).
Definition kind_of {A} (t : tree A) : kind :=
  match t with Leaf _ => KLeaf | Seq tag _ => KSeq tag | Dict tag _ => KDict tag end.
(** Two structures agree when every path leads to containers of the same type, or to leaves,
    or nowhere, in both. *)
Definition same_structure {A B} (a : tree A) (b : tree B) : Prop :=
  forall p, option_map kind_of (at_path a p) = option_map kind_of (at_path b p).
(** The keys of a Python dictionary are distinct. *)
Fixpoint keys_distinct {A} (t : tree A) : Prop :=
  match t with
  | Leaf _ => True
  | Seq _ items => (fix go l := match l with [] => True | x :: xs => keys_distinct x /\ go xs end) items
  | Dict _ items =>
      NoDup (map fst items) /\
      (fix go (l : list (nat * tree A)) := match l with [] => True | x :: xs => keys_distinct (snd x) /\ go xs end) items
  end.

(** * Proofs *)
Definition tree_rec' {A} (P : tree A -> Prop)
  (HL : forall a, P (Leaf a))
  (HS : forall tag items, Forall P items -> P (Seq tag items))
  (HD : forall tag items, Forall (fun kv => P (snd kv)) items -> P (Dict tag items)) : forall t, P t :=
  fix F t :=
    match t with
    | Leaf a => HL a
    | Seq tag items =>
        HS tag items ((fix G l : Forall P l :=
          match l with [] => Forall_nil _ | x :: xs => Forall_cons _ (F x) (G xs) end) items)
    | Dict tag items =>
        HD tag items ((fix G l : Forall (fun kv => P (snd kv)) l :=
          match l with [] => Forall_nil _ | x :: xs => Forall_cons _ (F (snd x)) (G xs) end) items)
    end.

Lemma keys_distinct_seq {A} tag (items : list (tree A)) :
  keys_distinct (Seq tag items) <-> Forall keys_distinct items.
Proof.
  cbn. induction items as [|x xs IH]; cbn; [easy|]. rewrite Forall_cons_iff. tauto.
Qed.
Lemma keys_distinct_dict {A} tag (items : list (nat * tree A)) :
  keys_distinct (Dict tag items) <-> NoDup (map fst items) /\ Forall (fun kv => keys_distinct (snd kv)) items.
Proof.
  cbn. apply and_iff_compat_l. induction items as [|x xs IH]; cbn; [easy|]. rewrite Forall_cons_iff. tauto.
Qed.

Fixpoint unflatten_list {A B} (items : list (tree A)) (l : list B) : res (list (tree B) * list B) :=
  match items with
  | [] => Ok ([], l)
  | x :: xs => let! (y, l1) := unflatten_iter_as x l in let! (ys, l2) := unflatten_list xs l1 in Ok (y :: ys, l2)
  end.
Fixpoint unflatten_dict {A B} (items : list (nat * tree A)) (l : list B) : res (list (nat * tree B) * list B) :=
  match items with
  | [] => Ok ([], l)
  | (k, x) :: xs => let! (y, l1) := unflatten_iter_as x l in let! (ys, l2) := unflatten_dict xs l1 in Ok ((k, y) :: ys, l2)
  end.
Lemma unflatten_seq_eq {A B} tag (items : list (tree A)) (l : list B) :
  unflatten_iter_as (Seq tag items) l = let! (items', l') := unflatten_list items l in Ok (Seq tag items', l').
Proof.
  cbn [unflatten_iter_as]. f_equal. revert l. induction items as [|x xs IH]; intros l; cbn [unflatten_list]; [easy|].
  destruct (unflatten_iter_as x l) as [[y l1]|e|]; cbn [bind]; [|easy|easy]. now rewrite IH.
Qed.
Lemma unflatten_dict_eq {A B} tag (items : list (nat * tree A)) (l : list B) :
  unflatten_iter_as (Dict tag items) l = let! (items', l') := unflatten_dict items l in Ok (Dict tag items', l').
Proof.
  cbn [unflatten_iter_as]. f_equal. revert l. induction items as [|[k x] xs IH]; intros l; cbn [unflatten_dict]; [easy|].
  destruct (unflatten_iter_as x l) as [[y l1]|e|]; cbn [bind]; [|easy|easy]. now rewrite IH.
Qed.

(** A structural version of agreement, keeping the order of the keys. *)
Inductive Same {A B} : tree A -> tree B -> Prop :=
| Same_leaf a b : Same (Leaf a) (Leaf b)
| Same_seq tag xs ys : Forall2 Same xs ys -> Same (Seq tag xs) (Seq tag ys)
| Same_dict tag xs ys : Forall2 (fun x y => fst x = fst y /\ Same (snd x) (snd y)) xs ys -> Same (Dict tag xs) (Dict tag ys).

Lemma nth_error_Forall2 {X Y} (R : X -> Y -> Prop) xs ys i : Forall2 R xs ys ->
  match nth_error xs i, nth_error ys i with Some x, Some y => R x y | None, None => True | _, _ => False end.
Proof. intros H. revert i. induction H as [|x y xs ys Hxy H IH]; intros [|i]; cbn; auto. apply IH. Qed.
Lemma lookup_Forall2 {X Y} (R : X -> Y -> Prop) xs ys k :
  Forall2 (fun x y => fst x = fst y /\ R (snd x) (snd y)) xs ys ->
  match lookup k xs, lookup k ys with Some x, Some y => R x y | None, None => True | _, _ => False end.
Proof.
  unfold lookup. induction 1 as [|x y xs ys [H1 H2] H IH]; cbn; [easy|].
  rewrite <- H1. destruct (Nat.eqb (fst x) k); auto.
Qed.
Lemma Same_path {A B} (p : list step_of) : forall (a : tree A) (b : tree B), Same a b ->
  match at_path a p, at_path b p with Some x, Some y => Same x y | None, None => True | _, _ => False end.
Proof.
  induction p as [|s p IH]; intros a b H; [exact H|].
  inversion H as [x y|tag xs ys Hf|tag xs ys Hf]; subst; cbn; [easy| |].
  - destruct s as [i|k]; [|easy]. pose proof (nth_error_Forall2 _ _ _ i Hf) as Hn.
    destruct (nth_error xs i), (nth_error ys i); try easy. now apply IH.
  - destruct s as [i|k]; [easy|]. pose proof (lookup_Forall2 Same _ _ k Hf) as Hn.
    destruct (lookup k xs), (lookup k ys); try easy. now apply IH.
Qed.
Lemma Same_same {A B} (a : tree A) (b : tree B) : Same a b -> same_structure a b.
Proof.
  intros H p. pose proof (Same_path p a b H) as Hp.
  destruct (at_path a p), (at_path b p); try easy. cbn. f_equal. now inversion Hp.
Qed.

Lemma unflatten_app {A B} (t : tree A) : forall (l rest : list B), length l = length (flatten t) ->
  exists t', unflatten_iter_as t (l ++ rest) = Ok (t', rest) /\ flatten t' = l /\ Same t t'.
Proof.
  induction t as [a|tag items IH|tag items IH] using tree_rec'; intros l rest Hl.
  - destruct l as [|b [|? ?]]; try discriminate. exists (Leaf b). repeat split; constructor.
  - rewrite unflatten_seq_eq. cbn in Hl.
    assert (H : exists ys, unflatten_list items (l ++ rest) = Ok (ys, rest) /\ flat_map flatten ys = l /\ Forall2 Same items ys).
    { revert l Hl. induction IH as [|x xs Hx Hxs IH]; intros l Hl; cbn in *.
      - destruct l; [|discriminate]. exists []. repeat split; constructor.
      - rewrite app_length in Hl.
        destruct (Hx (firstn (length (flatten x)) l) (skipn (length (flatten x)) l ++ rest)) as (y & Hy1 & Hy2 & Hy3).
        { rewrite firstn_length. lia. }
        destruct (IH (skipn (length (flatten x)) l)) as (ys & Hys1 & Hys2 & Hys3).
        { rewrite skipn_length. lia. }
        rewrite app_assoc, firstn_skipn in Hy1. rewrite Hy1. cbn. rewrite Hys1. cbn.
        exists (y :: ys). repeat split; [|now constructor].
        cbn. now rewrite Hy2, Hys2, firstn_skipn. }
    destruct H as (ys & -> & H2 & H3). exists (Seq tag ys). repeat split; [easy|now constructor].
  - rewrite unflatten_dict_eq. cbn in Hl.
    assert (H : exists ys, unflatten_dict items (l ++ rest) = Ok (ys, rest) /\ flat_map (fun kv => flatten (snd kv)) ys = l /\
                           Forall2 (fun x y => fst x = fst y /\ Same (snd x) (snd y)) items ys).
    { revert l Hl. induction IH as [|[k x] xs Hx Hxs IH]; intros l Hl; cbn in *.
      - destruct l; [|discriminate]. exists []. repeat split; constructor.
      - rewrite app_length in Hl.
        destruct (Hx (firstn (length (flatten x)) l) (skipn (length (flatten x)) l ++ rest)) as (y & Hy1 & Hy2 & Hy3).
        { rewrite firstn_length. lia. }
        destruct (IH (skipn (length (flatten x)) l)) as (ys & Hys1 & Hys2 & Hys3).
        { rewrite skipn_length. lia. }
        rewrite app_assoc, firstn_skipn in Hy1. rewrite Hy1. cbn. rewrite Hys1. cbn.
        exists ((k, y) :: ys). repeat split; [|now constructor].
        cbn. now rewrite Hy2, Hys2, firstn_skipn. }
    destruct H as (ys & -> & H2 & H3). exists (Dict tag ys). repeat split; [easy|now constructor].
Qed.

Lemma Same_flatten {A} (a : tree A) : forall b, Same a b -> flatten a = flatten b -> a = b.
Proof.
  assert (Hlen : forall (a b : tree A), Same a b -> length (flatten a) = length (flatten b)).
  { intros x. induction x as [x|tag items IH|tag items IH] using tree_rec'; intros b H; inversion H as [? ?|? ? ys Hf|? ? ys Hf]; subst; cbn; [easy| |].
    - revert ys Hf H. induction IH as [|x xs Hx Hxs IH']; intros ys Hf H; inversion Hf; subst; cbn; [easy|].
      rewrite !app_length. f_equal; [now apply Hx|]. apply IH'; [easy|now constructor].
    - revert ys Hf H. induction IH as [|x xs Hx Hxs IH']; intros ys Hf H; inversion Hf as [|? y ? ? [H1 H2]]; subst; cbn; [easy|].
      rewrite !app_length. f_equal; [now apply Hx|]. apply IH'; [easy|now constructor]. }
  assert (Happ : forall (u v u' v' : list A), length u = length u' -> u ++ v = u' ++ v' -> u = u' /\ v = v').
  { induction u as [|x u IH]; intros v [|x' u'] v' Hl He; try discriminate; [now split|].
    cbn in *. injection He as -> He. destruct (IH v u' v') as [-> ->]; [lia|easy|easy]. }
  induction a as [x|tag items IH|tag items IH] using tree_rec'; intros b H Hfl; inversion H as [? ?|? ? ys Hf|? ? ys Hf]; subst.
  - cbn in Hfl. congruence.
  - f_equal. clear H. cbn in Hfl. revert ys Hf Hfl.
    induction IH as [|x xs Hx Hxs IH']; intros ys Hf Hfl; inversion Hf as [|? y ? ys' Hxy Hrest]; subst; [easy|].
    cbn in Hfl. apply Happ in Hfl as [E1 E2]; [|now apply Hlen]. f_equal; [now apply Hx|now apply IH'].
  - f_equal. clear H. cbn in Hfl. revert ys Hf Hfl.
    induction IH as [|[k x] xs Hx Hxs IH']; intros ys Hf Hfl; inversion Hf as [|? [k' y] ? ys' [Hk Hxy] Hrest]; subst; [easy|].
    cbn in *. subst. apply Happ in Hfl as [E1 E2]; [|now apply Hlen]. f_equal; [|now apply IH']. f_equal. now apply Hx.
Qed.

(** Flattening a structure and rebuilding it gives it back. *)
Theorem C51_flatten_unflatten {A} (t : tree A) : unflatten_as t (flatten t) = Ok t.
Proof.
  destruct (unflatten_app t (flatten t) [] eq_refl) as (t' & H1 & H2 & H3).
  unfold unflatten_as. rewrite app_nil_r in H1. rewrite H1. cbn. f_equal. symmetry. now apply Same_flatten.
Qed.

(** A structure can be rebuilt with any other values, of which it then has exactly those, in
    order; values too many are ignored. *)
Theorem C51_unflatten_flatten {A B} (t : tree A) (l rest : list B) :
  length l = length (flatten t) ->
  exists t', unflatten_as t (l ++ rest) = Ok t' /\ flatten t' = l /\ same_structure t t'.
Proof.
  intros Hl. destruct (unflatten_app t l rest Hl) as (t' & H1 & H2 & H3).
  exists t'. unfold unflatten_as. rewrite H1. repeat split; [easy|]. now apply Same_same.
Qed.

(** Values too few are an error. *)
Theorem C51_unflatten_short {A B} (t : tree A) (l : list B) :
  (length l < length (flatten t))%nat -> unflatten_as t l = Raise RuntimeError.
Proof.
  assert (H : forall l : list B, (length l < length (flatten t))%nat -> unflatten_iter_as t l = Raise RuntimeError).
  { clear l. induction t as [a|tag items IH|tag items IH] using tree_rec'; intros l Hl.
    - destruct l; [easy|cbn in Hl; lia].
    - rewrite unflatten_seq_eq. cbn in Hl.
      assert (E : unflatten_list items l = Raise RuntimeError); [|now rewrite E].
      revert l Hl. induction IH as [|x xs Hx Hxs IH']; intros l Hl; cbn in *; [lia|].
      rewrite app_length in Hl. destruct (Nat.lt_ge_cases (length l) (length (flatten x))) as [Hlt|Hge].
      + now rewrite (Hx l Hlt).
      + destruct (unflatten_app x (firstn (length (flatten x)) l) (skipn (length (flatten x)) l)) as (y & Hy & _).
        { rewrite firstn_length. lia. }
        rewrite firstn_skipn in Hy. rewrite Hy. cbn. rewrite IH'; [easy|]. rewrite skipn_length. lia.
    - rewrite unflatten_dict_eq. cbn in Hl.
      assert (E : unflatten_dict items l = Raise RuntimeError); [|now rewrite E].
      revert l Hl. induction IH as [|[k x] xs Hx Hxs IH']; intros l Hl; cbn in *; [lia|].
      rewrite app_length in Hl. destruct (Nat.lt_ge_cases (length l) (length (flatten x))) as [Hlt|Hge].
      + now rewrite (Hx l Hlt).
      + destruct (unflatten_app x (firstn (length (flatten x)) l) (skipn (length (flatten x)) l)) as (y & Hy & _).
        { rewrite firstn_length. lia. }
        rewrite firstn_skipn in Hy. rewrite Hy. cbn. rewrite IH'; [easy|]. rewrite skipn_length. lia. }
  intros Hl. unfold unflatten_as. now rewrite H.
Qed.

(** ** map over one structure *)
Fixpoint map_list {A B} (f : A -> res B) (items : list (tree A)) : res (list (tree B)) :=
  match items with [] => Ok [] | x :: xs => let! y := map_leaves f x in let! ys := map_list f xs in Ok (y :: ys) end.
Fixpoint map_dict {A B} (f : A -> res B) (items : list (nat * tree A)) : res (list (nat * tree B)) :=
  match items with [] => Ok [] | (k, x) :: xs => let! y := map_leaves f x in let! ys := map_dict f xs in Ok ((k, y) :: ys) end.
Lemma map_leaves_seq {A B} (f : A -> res B) tag items :
  map_leaves f (Seq tag items) = let! items' := map_list f items in Ok (Seq tag items').
Proof.
  unfold map_leaves. cbn [map_structure map sequence bind]. f_equal.
  induction items as [|x xs IH]; [easy|]. cbn [map_list heads map]. unfold map_leaves at 1. now rewrite <- IH.
Qed.
Lemma map_leaves_dict {A B} (f : A -> res B) tag items :
  map_leaves f (Dict tag items) = let! items' := map_dict f items in Ok (Dict tag items').
Proof.
  unfold map_leaves. cbn [map_structure map sequence bind same_keys forallb negb]. f_equal.
  induction items as [|[k x] xs IH]; [easy|]. cbn [map_dict sequence bind map]. unfold map_leaves at 1. now rewrite <- IH.
Qed.

Lemma sequence_app {A} (l1 l2 : list (res A)) :
  sequence (l1 ++ l2) = let! a := sequence l1 in let! b := sequence l2 in Ok (a ++ b).
Proof.
  induction l1 as [|r l1 IH]; cbn.
  - now destruct (sequence l2).
  - destruct r; cbn; [|easy|easy]. rewrite IH. destruct (sequence l1); cbn; [|easy|easy]. now destruct (sequence l2).
Qed.
Lemma sequence_length {A} (l : list (res A)) vs : sequence l = Ok vs -> length vs = length l.
Proof. intros H. apply sequence_Ok_iff in H. subst. now rewrite map_length. Qed.

(** Mapping a function over the leaves: it is called on the leaves in order, up to the first
    exception, which is what the caller sees; otherwise the result is the same structure around
    the returned values. *)
Theorem C51_map {A B} (f : A -> res B) (t : tree A) :
  map_leaves f t = match sequence (map f (flatten t)) with
                   | Ok l => unflatten_as t l
                   | Raise e => Raise e
                   | OutOfFuel => OutOfFuel
                   end.
Proof.
  assert (H : forall rest,
    map_leaves f t = match sequence (map f (flatten t)) with
                     | Ok l => let! (t', _) := unflatten_iter_as t (l ++ rest) in Ok t'
                     | Raise e => Raise e | OutOfFuel => OutOfFuel end).
  { induction t as [a|tag items IH|tag items IH] using tree_rec'; intros rest.
    - unfold map_leaves. cbn. now destruct (f a).
    - rewrite map_leaves_seq. cbn [flatten].
      assert (E : forall rest,
        map_list f items = match sequence (map f (flat_map flatten items)) with
                           | Ok l => let! (t', _) := unflatten_list items (l ++ rest) in Ok t'
                           | Raise e => Raise e | OutOfFuel => OutOfFuel end).
      { induction IH as [|x xs Hx Hxs IH']; intros rest'; cbn [map_list flat_map map sequence]; [easy|].
        rewrite map_app, sequence_app. destruct (sequence (map f (flatten x))) as [l1|e|] eqn:E1; cbn.
        - pose proof (sequence_length _ _ E1) as Hl1. rewrite map_length in Hl1.
          destruct (sequence (map f (flat_map flatten xs))) as [l2|e|] eqn:E2; cbn.
          + rewrite (Hx (l2 ++ rest')), (IH' rest'). rewrite <- app_assoc.
            destruct (unflatten_app x l1 (l2 ++ rest') Hl1) as (y & -> & _). cbn.
            destruct (unflatten_list xs (l2 ++ rest')) as [[ys l3]|e|]; easy.
          + rewrite (Hx []), (IH' []). destruct (unflatten_app x l1 [] Hl1) as (y & -> & _). easy.
          + rewrite (Hx []), (IH' []). destruct (unflatten_app x l1 [] Hl1) as (y & -> & _). easy.
        - now rewrite (Hx []).
        - now rewrite (Hx []). }
      rewrite (E rest). destruct (sequence (map f (flat_map flatten items))); [|easy|easy].
      rewrite unflatten_seq_eq. destruct (unflatten_list items (a ++ rest)) as [[? ?]|?|]; easy.
    - rewrite map_leaves_dict. cbn [flatten].
      assert (E : forall rest,
        map_dict f items = match sequence (map f (flat_map (fun kv => flatten (snd kv)) items)) with
                           | Ok l => let! (t', _) := unflatten_dict items (l ++ rest) in Ok t'
                           | Raise e => Raise e | OutOfFuel => OutOfFuel end).
      { induction IH as [|[k x] xs Hx Hxs IH']; intros rest'; cbn [map_dict flat_map map sequence snd]; [easy|].
        cbn [snd] in Hx.
        rewrite map_app, sequence_app. destruct (sequence (map f (flatten x))) as [l1|e|] eqn:E1; cbn.
        - pose proof (sequence_length _ _ E1) as Hl1. rewrite map_length in Hl1.
          destruct (sequence (map f (flat_map (fun kv => flatten (snd kv)) xs))) as [l2|e|] eqn:E2; cbn.
          + rewrite (Hx (l2 ++ rest')), (IH' rest'). rewrite <- app_assoc.
            destruct (unflatten_app x l1 (l2 ++ rest') Hl1) as (y & -> & _). cbn.
            destruct (unflatten_dict xs (l2 ++ rest')) as [[ys l3]|e|]; easy.
          + rewrite (Hx []), (IH' []). destruct (unflatten_app x l1 [] Hl1) as (y & -> & _). easy.
          + rewrite (Hx []), (IH' []). destruct (unflatten_app x l1 [] Hl1) as (y & -> & _). easy.
        - now rewrite (Hx []).
        - now rewrite (Hx []). }
      rewrite (E rest). destruct (sequence (map f (flat_map (fun kv => flatten (snd kv)) items))); [|easy|easy].
      rewrite unflatten_dict_eq. destruct (unflatten_dict items (a ++ rest)) as [[? ?]|?|]; easy. }
  rewrite (H []). destruct (sequence (map f (flatten t))); [|easy|easy]. unfold unflatten_as. now rewrite app_nil_r.
Qed.

(** A function that does not raise: the leaves are its values, nothing else changes. *)
Theorem C51_map_total {A B} (f : A -> B) (t : tree A) :
  exists t', map_leaves (fun x => Ok (f x)) t = Ok t' /\ flatten t' = map f (flatten t) /\ same_structure t t'.
Proof.
  rewrite C51_map. rewrite <- (map_map f Ok), sequence_map_Ok.
  destruct (C51_unflatten_flatten t (map f (flatten t)) []) as (t' & H). { apply map_length. }
  rewrite app_nil_r in H. exists t'. exact H.
Qed.

(** Mapping the identity changes nothing, and mapping two functions one after the other is
    mapping their composition. *)
Theorem C51_map_compose {A B C} (f : A -> B) (g : B -> C) (t : tree A) :
  map_leaves (fun x => Ok x) t = Ok t /\
  (let! t' := map_leaves (fun x => Ok (f x)) t in map_leaves (fun x => Ok (g x)) t') =
  map_leaves (fun x => Ok (g (f x))) t.
Proof.
  split.
  - rewrite C51_map, sequence_map_Ok. apply C51_flatten_unflatten.
  - rewrite !C51_map. rewrite <- (map_map f Ok), <- (map_map (fun x => g (f x)) Ok), !sequence_map_Ok.
    rewrite <- (map_map f g).
    destruct (unflatten_app t (map f (flatten t)) []) as (t1 & H1 & H2 & H3). { apply map_length. }
    unfold unflatten_as at 1. rewrite app_nil_r in H1. rewrite H1. cbn.
    rewrite C51_map. rewrite <- (map_map g Ok), sequence_map_Ok, H2.
    (* both sides rebuild from the same values: the shapes of [t] and [t1] are the same *)
    assert (Hs : forall {X Y} (a : tree X) (b : tree Y), Same a b -> forall l : list C, unflatten_iter_as a l = unflatten_iter_as b l).
    { intros X Y a. induction a as [x|tag items IH|tag items IH] using tree_rec'; intros b Hab l; inversion Hab as [? ?|? ? ys Hf|? ? ys Hf]; subst.
      - easy.
      - rewrite !unflatten_seq_eq. f_equal. clear Hab. revert ys Hf l.
        induction IH as [|x xs Hx Hxs IH']; intros ys Hf l; inversion Hf as [|? y ? ys' Hxy Hr]; subst; [easy|].
        cbn. rewrite (Hx y Hxy). destruct (unflatten_iter_as y l) as [[? ?]|?|]; cbn; [|easy|easy]. now rewrite (IH' ys' Hr).
      - rewrite !unflatten_dict_eq. f_equal. clear Hab. revert ys Hf l.
        induction IH as [|[k x] xs Hx Hxs IH']; intros ys Hf l; inversion Hf as [|? [k' y] ? ys' [Hk Hxy] Hr]; subst; [easy|].
        cbn in *. subst. rewrite (Hx y Hxy). destruct (unflatten_iter_as y l) as [[? ?]|?|]; cbn; [|easy|easy]. now rewrite (IH' ys' Hr). }
    unfold unflatten_as. now rewrite (Hs _ _ t t1 H3).
Qed.

(** ** several structures *)
Lemma same_seq {A B} tag (xs : list (tree A)) (b : tree B) : same_structure (Seq tag xs) b ->
  exists ys, b = Seq tag ys /\ Forall2 same_structure xs ys.
Proof.
  intros H. pose proof (H []) as H0. destruct b as [|tag' ys|]; try discriminate. cbn in H0. injection H0 as <-.
  exists ys. split; [easy|].
  assert (Hn : forall i p, option_map kind_of (at_path (Seq tag xs) (Idx i :: p)) =
                           option_map kind_of (at_path (Seq tag ys) (Idx i :: p))) by (intros; apply H).
  clear H. revert ys Hn. induction xs as [|x xs IH]; intros [|y ys] Hn.
  - constructor.
  - specialize (Hn O []). discriminate.
  - specialize (Hn O []). discriminate.
  - constructor; [intros p; apply (Hn O p)|]. apply IH. intros i p. apply (Hn (S i) p).
Qed.
Lemma same_dict {A B} tag (xs : list (nat * tree A)) (b : tree B) : same_structure (Dict tag xs) b ->
  exists ys, b = Dict tag ys /\
    forall k, match lookup k xs, lookup k ys with
              | Some x, Some y => same_structure x y | None, None => True | _, _ => False end.
Proof.
  intros H. pose proof (H []) as H0. destruct b as [| |tag' ys]; try discriminate. cbn in H0. injection H0 as <-.
  exists ys. split; [easy|]. intros k. pose proof (fun p => H (Key k :: p)) as Hk. cbn in Hk.
  destruct (lookup k xs), (lookup k ys); cbn in Hk; [exact Hk|specialize (Hk []); discriminate|specialize (Hk []); discriminate|easy].
Qed.

Fixpoint map_rows {A B} (f : A -> list (tree A) -> res B) (items : list (tree A)) (cols : list (list (tree A))) : res (list (tree B)) :=
  match items with
  | [] => Ok []
  | x :: xs => match heads cols with
               | None => Ok []
               | Some hs => let! y := map_structure f x hs in let! ys := map_rows f xs (map (@tl _) cols) in Ok (y :: ys)
               end
  end.
Definition lookups {X} (k : nat) (dicts : list (list (nat * X))) : res (list X) :=
  sequence (map (fun d => match lookup k d with Some t => Ok t | None => Raise KeyError end) dicts).
Fixpoint map_entries {A B} (f : A -> list (tree A) -> res B) (items : list (nat * tree A)) (dicts : list (list (nat * tree A))) : res (list (nat * tree B)) :=
  match items with
  | [] => Ok []
  | (k, x) :: xs => let! hs := lookups k dicts in
                    let! y := map_structure f x hs in let! ys := map_entries f xs dicts in Ok ((k, y) :: ys)
  end.
Lemma map_structure_seq {A B} (f : A -> list (tree A) -> res B) tag items others :
  map_structure f (Seq tag items) others =
  let! cols := sequence (map seq_items others) in let! items' := map_rows f items cols in Ok (Seq tag items').
Proof.
  cbn [map_structure]. destruct (sequence (map seq_items others)) as [cols|e|]; cbn [bind]; [|easy|easy]. f_equal.
  revert cols. induction items as [|x xs IH]; intros cols; cbn [map_rows]; [easy|].
  destruct (heads cols); [|easy]. destruct (map_structure f x l); cbn [bind]; [|easy|easy]. now rewrite IH.
Qed.
Lemma map_structure_dict {A B} (f : A -> list (tree A) -> res B) tag items others :
  map_structure f (Dict tag items) others =
  let! dicts := sequence (map dict_items others) in
  if negb (same_keys items dicts) then Raise KeyError else let! items' := map_entries f items dicts in Ok (Dict tag items').
Proof.
  cbn [map_structure]. destruct (sequence (map dict_items others)) as [dicts|e|]; cbn [bind]; [|easy|easy].
  destruct (negb _); [easy|]. f_equal.
  induction items as [|[k x] xs IH]; cbn [map_entries]; [easy|]. unfold lookups.
  destruct (sequence _); cbn [bind]; [|easy|easy]. destruct (map_structure f x a); cbn [bind]; [|easy|easy]. now rewrite IH.
Qed.

Lemma seq_items_all {A B} tag (xs : list (tree B)) (others : list (tree A)) :
  Forall (same_structure (Seq tag xs)) others ->
  exists cols, sequence (map seq_items others) = Ok cols /\ others = map (Seq tag) cols /\
    Forall (fun ys => Forall2 same_structure xs ys) cols.
Proof.
  induction 1 as [|o others Ho Hos (cols & H1 & H2 & H3)].
  - exists []. repeat split; constructor.
  - destruct (same_seq _ _ _ Ho) as (ys & -> & Hys). exists (ys :: cols). cbn. rewrite H1. cbn. subst.
    repeat split. now constructor.
Qed.
Lemma heads_all {A B} (x : tree B) xs (cols : list (list (tree A))) :
  Forall (fun ys => Forall2 same_structure (x :: xs) ys) cols ->
  exists hs, heads cols = Some hs /\ Forall (same_structure x) hs /\
    Forall (fun ys => Forall2 same_structure xs ys) (map (@tl _) cols) /\
    cols = map (fun hy => fst hy :: snd hy) (combine hs (map (@tl _) cols)).
Proof.
  induction 1 as [|c cols Hc Hcs (hs & H1 & H2 & H3 & H4)].
  - exists []. repeat split; constructor.
  - inversion Hc as [|? y ? ys Hxy Hrest]; subst. exists (y :: hs). cbn. rewrite H1.
    repeat split; [now constructor|now constructor|]. now f_equal.
Qed.
Lemma lookup_in {X} k (l : list (nat * X)) x : lookup k l = Some x -> In (k, x) l.
Proof.
  unfold lookup. destruct (find _ l) as [[k' v]|] eqn:E; [|easy]. intros [= <-].
  apply find_some in E as [H1 H2]. cbn in H2. apply Nat.eqb_eq in H2. now subst.
Qed.
Lemma lookup_none {X} k (l : list (nat * X)) : lookup k l = None -> ~ In k (map fst l).
Proof.
  unfold lookup. destruct (find _ l) eqn:E; [easy|]. intros _ Hin. apply in_map_iff in Hin as ([k' v] & <- & Hin).
  apply (find_none _ _ E) in Hin. cbn in Hin. now rewrite Nat.eqb_refl in Hin.
Qed.
Lemma lookup_nodup {X} k (l : list (nat * X)) x : NoDup (map fst l) -> In (k, x) l -> lookup k l = Some x.
Proof.
  unfold lookup. induction l as [|[k' v] l IH]; cbn; [easy|]. intros Hnd [H|H].
  - injection H as -> ->. now rewrite Nat.eqb_refl.
  - inversion Hnd as [|? ? Hni Hnd']; subst. destruct (Nat.eqb_spec k' k) as [->|Hne].
    + exfalso. apply Hni. apply in_map_iff. now exists (k, x).
    + now apply IH.
Qed.
Lemma lookup_some_key {X} k (l : list (nat * X)) : In k (map fst l) -> exists x, lookup k l = Some x.
Proof. intros H. destruct (lookup k l) as [x|] eqn:E; [now exists x|]. now apply lookup_none in E. Qed.

Lemma existsb_key k (l : list nat) : existsb (Nat.eqb k) l = true <-> In k l.
Proof.
  rewrite existsb_exists. split.
  - intros (x & Hin & H). apply Nat.eqb_eq in H. now subst.
  - intros H. exists k. now rewrite Nat.eqb_refl.
Qed.
Lemma same_keys_iff {X} (items : list (nat * X)) others :
  same_keys items others = true <-> Forall (fun o => forall k, In k (map fst items) <-> In k (map fst o)) others.
Proof.
  unfold same_keys. rewrite forallb_forall, Forall_forall.
  split; intros H o Ho; specialize (H o Ho).
  - apply andb_true_iff in H as [H1 H2]. rewrite forallb_forall in H1, H2. intros k. split; intros Hk.
    + apply in_map_iff in Hk as (kv & <- & Hk). apply existsb_key. now apply H2.
    + apply in_map_iff in Hk as (kv & <- & Hk). apply existsb_key. now apply H1.
  - apply andb_true_iff. rewrite !forallb_forall. split; intros kv Hk; apply existsb_key, H, in_map_iff; now exists kv.
Qed.
Lemma dict_items_all {A B} tag (xs : list (nat * tree B)) (others : list (tree A)) :
  Forall (same_structure (Dict tag xs)) others ->
  exists dicts, sequence (map dict_items others) = Ok dicts /\ others = map (Dict tag) dicts /\
    Forall (fun ys => forall k, match lookup k xs, lookup k ys with
              | Some x, Some y => same_structure x y | None, None => True | _, _ => False end) dicts.
Proof.
  induction 1 as [|o others Ho Hos (cols & H1 & H2 & H3)].
  - exists []. repeat split; constructor.
  - destruct (same_dict _ _ _ Ho) as (ys & -> & Hys). exists (ys :: cols). cbn. rewrite H1. cbn. subst.
    repeat split. now constructor.
Qed.
Lemma lookups_all {A B} k (xs : list (nat * tree B)) x (dicts : list (list (nat * tree A))) : lookup k xs = Some x ->
  Forall (fun ys => forall k, match lookup k xs, lookup k ys with
              | Some x, Some y => same_structure x y | None, None => True | _, _ => False end) dicts ->
  exists hs, lookups k dicts = Ok hs /\ Forall (same_structure x) hs /\ Forall2 (fun d h => lookup k d = Some h) dicts hs.
Proof.
  intros Hk. unfold lookups. induction 1 as [|d dicts Hd Hds (hs & H1 & H2 & H3)].
  - exists []. repeat split; constructor.
  - cbn. specialize (Hd k). rewrite Hk in Hd. destruct (lookup k d) as [y|] eqn:E; [|easy].
    cbn. rewrite H1. exists (y :: hs). cbn. repeat split; now constructor.
Qed.

Section MapMany.
Context {A B : Type} (f : A -> list (tree A) -> res B) (g : A -> list A -> B).
Hypothesis f_g : forall x args, f x (map Leaf args) = Ok (g x args).

(** What the result must hold at every leaf of the first structure. *)
Definition combined (a : tree A) (others : list (tree A)) (t : tree B) : Prop :=
  forall p x, at_path a p = Some (Leaf x) ->
  exists args, Forall2 (fun o v => at_path o p = Some (Leaf v)) others args /\ at_path t p = Some (Leaf (g x args)).

Lemma map_many (a : tree A) : forall others, keys_distinct a -> Forall (same_structure a) others ->
  exists t, map_structure f a others = Ok t /\ Same a t /\ combined a others t.
Proof.
  induction a as [x|tag items IH|tag items IH] using tree_rec'; intros others Hkd Hs.
  - assert (Hargs : exists args, others = map Leaf args).
    { clear - Hs. induction Hs as [|o others Ho Hos (args & ->)]; [now exists []|].
      specialize (Ho []). destruct o as [v| |]; try discriminate. now exists (v :: args). }
    destruct Hargs as (args & ->). cbn. rewrite f_g. cbn. exists (Leaf (g x args)). repeat split; [constructor|].
    intros p y Hp. destruct p as [|? ?]; [|discriminate]. injection Hp as <-.
    exists args. split; [|easy]. clear. induction args; constructor; auto.
  - rewrite map_structure_seq. destruct (seq_items_all _ _ _ Hs) as (cols & -> & -> & Hcols). cbn [bind].
    apply keys_distinct_seq in Hkd.
    assert (H : exists ys, map_rows f items cols = Ok ys /\ Forall2 Same items ys /\
      forall i p x, match nth_error items i with Some u => at_path u p | None => None end = Some (Leaf x) ->
      exists args, Forall2 (fun c v => match nth_error c i with Some u => at_path u p | None => None end = Some (Leaf v)) cols args /\
                   match nth_error ys i with Some u => at_path u p | None => None end = Some (Leaf (g x args))).
    { clear Hs. revert cols Hcols. induction IH as [|x xs Hx Hxs IH']; intros cols Hcols.
      - exists []. repeat split; [constructor|]. intros [|i]; discriminate.
      - inversion Hkd as [|? ? Hk1 Hk2]; subst.
        destruct (heads_all _ _ _ Hcols) as (hs & E & Hhs & Htl & Ecols).
        cbn [map_rows]. rewrite E. destruct (Hx hs Hk1 Hhs) as (y & -> & Hy1 & Hy2). cbn [bind].
        destruct (IH' Hk2 _ Htl) as (ys & -> & Hys1 & Hys2). cbn [bind]. exists (y :: ys).
        split; [easy|]. split; [now constructor|]. intros [|i] p v Hp; cbn in Hp.
        + destruct (Hy2 p v Hp) as (args & H1 & H2). exists args. split; [|exact H2].
          clear - E H1. revert hs E args H1. induction cols as [|[|c0 c] cols IH]; intros hs E args H1; cbn in E.
          * injection E as <-. inversion H1; constructor.
          * discriminate.
          * destruct (heads cols) as [hs'|]; [|discriminate]. injection E as <-. inversion H1; subst.
            constructor; [easy|]. now apply (IH hs').
        + destruct (Hys2 i p v Hp) as (args & H1 & H2). exists args. split; [|exact H2].
          clear - H1 Hcols. revert args H1. induction Hcols as [|c cols Hc Hcs IH]; intros args H1; cbn in H1.
          * inversion H1. constructor.
          * inversion H1; subst. inversion Hc; subst. constructor; [easy|]. now apply IH. }
    destruct H as (ys & -> & H1 & H2). cbn. exists (Seq tag ys). split; [easy|]. split; [now constructor|].
    intros [|[i|k] p] x Hp; cbn in Hp; try discriminate.
    destruct (H2 i p x Hp) as (args & Ha & Hb). exists args. split; [|exact Hb].
    clear - Ha. induction Ha; constructor; auto.
  - rewrite map_structure_dict. destruct (dict_items_all _ _ _ Hs) as (dicts & -> & -> & Hd). cbn [bind].
    apply keys_distinct_dict in Hkd as [Hnd Hkd].
    assert (Hsk : same_keys items dicts = true).
    { apply same_keys_iff. revert Hd. apply Forall_impl. intros ys H k. split; intros Hk.
      - destruct (lookup_some_key _ _ Hk) as (x & Hx). specialize (H k). rewrite Hx in H.
        destruct (lookup k ys) as [y|] eqn:E; [|easy]. apply lookup_in in E. apply in_map_iff. now exists (k, y).
      - destruct (lookup_some_key _ _ Hk) as (x & Hx). specialize (H k). rewrite Hx in H.
        destruct (lookup k items) as [y|] eqn:E; [|easy]. apply lookup_in in E. apply in_map_iff. now exists (k, y). }
    rewrite Hsk. cbn [negb].
    assert (H : forall xs, incl xs items -> exists ys, map_entries f xs dicts = Ok ys /\
      Forall2 (fun x y => fst x = fst y /\ Same (snd x) (snd y)) xs ys /\
      forall k u, lookup k xs = Some u -> exists hs y, lookup k ys = Some y /\
        Forall2 (fun d h => lookup k d = Some h) dicts hs /\ combined u hs y).
    { induction xs as [|[k x] xs IHx]; intros Hincl.
      - exists []. repeat split; [constructor|discriminate].
      - assert (Hin : In (k, x) items) by (apply Hincl; now left).
        pose proof (lookup_nodup _ _ _ Hnd Hin) as Hl.
        destruct (lookups_all _ _ _ _ Hl Hd) as (hs & E & Hhs & Hhd).
        rewrite Forall_forall in IH, Hkd.
        destruct (IH _ Hin hs (Hkd _ Hin) Hhs) as (y & Ey & Hy1 & Hy2). cbn [snd] in Ey.
        destruct IHx as (ys & Eys & Hys1 & Hys2). { intros z Hz. apply Hincl. now right. }
        cbn [map_entries]. rewrite E. cbn [bind]. rewrite Ey. cbn [bind]. rewrite Eys. cbn [bind].
        exists ((k, y) :: ys). split; [easy|]. split; [now constructor|]. intros k' u Hu.
        unfold lookup in Hu |- *. cbn in Hu |- *. destruct (Nat.eqb_spec k k') as [->|Hne].
        + injection Hu as <-. exists hs, y. repeat split; [exact Hhd|exact Hy2].
        + apply Hys2. exact Hu. }
    destruct (H items (fun z Hz => Hz)) as (ys & -> & H1 & H2). cbn. exists (Dict tag ys).
    split; [easy|]. split; [now constructor|].
    intros [|[i|k] p] x Hp; cbn in Hp; try discriminate. destruct (lookup k items) as [u|] eqn:Eu; [|discriminate].
    destruct (H2 k u Eu) as (hs & y & Hy & Hhs & Hc). destruct (Hc p x Hp) as (args & Ha & Hb).
    exists args. cbn. rewrite Hy. split; [|exact Hb].
    clear - Ha Hhs. revert args Ha. induction Hhs as [|d h dicts hs Hdh Hds IH]; intros args Ha; inversion Ha; subst; [constructor|].
    constructor; [cbn; now rewrite Hdh|now apply IH].
Qed.
End MapMany.

(** Mapping a function of several arguments over structures that agree (their dictionaries may
    list their keys in different orders): the result has the structure of the first one and
    holds, at every path to a leaf, the function's value at what all of them hold there. *)
Theorem C51_map_many {A B} (f : A -> list (tree A) -> res B) (g : A -> list A -> B) a others :
  (forall x args, f x (map Leaf args) = Ok (g x args)) ->
  keys_distinct a -> Forall (same_structure a) others ->
  exists t, map_structure f a others = Ok t /\ same_structure a t /\
    forall p x, at_path a p = Some (Leaf x) ->
    exists args, Forall2 (fun o v => at_path o p = Some (Leaf v)) others args /\ at_path t p = Some (Leaf (g x args)).
Proof.
  intros Hf Hk Hs. destruct (map_many f g Hf a others Hk Hs) as (t & H1 & H2 & H3).
  exists t. split; [easy|]. split; [now apply Same_same|exact H3].
Qed.

Example C51_map_many_holds :
  let a := Dict 0 [(1%nat, Leaf 10); (2%nat, Seq 0 [Leaf 20; Leaf 30])] in
  let b := Dict 0 [(2%nat, Seq 0 [Leaf 2; Leaf 3]); (1%nat, Leaf 1)] in
  keys_distinct a /\ same_structure a b /\
  map_structure (fun x args => match args with [Leaf y] => Ok (x + y) | _ => Raise TypeError end) a [b] =
  Ok (Dict 0 [(1%nat, Leaf 11); (2%nat, Seq 0 [Leaf 22; Leaf 33])]).
Proof.
  split; [|split; [|reflexivity]].
  - cbn. repeat split; repeat constructor; cbn; intuition discriminate.
  - intros [|[i|[|[|[|k]]]] p]; try reflexivity.
    + destruct p as [|[i|k] p]; reflexivity.
    + destruct p as [|[[|[|i]]|k] p]; try reflexivity; cbn.
      * destruct p as [|[i|k] p]; reflexivity.
      * destruct p as [|[i|k] p]; reflexivity.
Qed.

(** The guard matters: sequences of different lengths are not rejected, the longer is cut. *)
Theorem C51_map_lengths_refuted :
  exists a b : tree Z,
    assert_same_structure a b = false /\
    map_structure (fun x args => match args with [Leaf y] => Ok (x + y) | _ => Raise TypeError end) a [b] =
    Ok (Seq 0 [Leaf 4]).
Proof. exists (Seq 0 [Leaf 1; Leaf 2]), (Seq 0 [Leaf 3]). split; reflexivity. Qed.

(** Structures that agree up to the order of their keys flatten in different orders: the flat
    values of one do not fit the other. *)
Theorem C51_key_order_refuted :
  exists a b : tree Z,
    same_structure a b /\ assert_same_structure a b = true /\ assert_same_structure b a = true /\
    exists c, unflatten_as a (flatten b) = Ok c /\ at_path b [Key 1] = Some (Leaf 5) /\ at_path c [Key 1] = Some (Leaf 6).
Proof.
  exists (Dict 0 [(1%nat, Leaf 0); (2%nat, Leaf 0)]), (Dict 0 [(2%nat, Leaf 6); (1%nat, Leaf 5)]).
  split; [|repeat split; eexists; repeat split; reflexivity].
  intros [|[i|[|[|[|k]]]] p]; try reflexivity; destruct p as [|[i|k] p]; reflexivity.
Qed.

(** ** paths *)
Fixpoint fwp_list {A} (prefix : list step_of) (i : nat) (items : list (tree A)) : list (list step_of * A) :=
  match items with [] => [] | x :: xs => flatten_with_path (prefix ++ [Idx i]) x ++ fwp_list prefix (S i) xs end.
Lemma fwp_seq {A} prefix tag (items : list (tree A)) : flatten_with_path prefix (Seq tag items) = fwp_list prefix 0 items.
Proof. cbn [flatten_with_path]. generalize 0%nat. induction items as [|x xs IH]; intros i; cbn [fwp_list]; [easy|]. now rewrite IH. Qed.

Lemma fwp_prefix {A} (t : tree A) : forall prefix q x, In (q, x) (flatten_with_path prefix t) <->
  exists p, q = prefix ++ p /\ In (p, x) (flatten_with_path [] t).
Proof.
  assert (H : forall prefix, flatten_with_path prefix t = map (fun px => (prefix ++ fst px, snd px)) (flatten_with_path [] t)).
  { induction t as [a|tag items IH|tag items IH] using tree_rec'; intros prefix.
    - cbn. now rewrite app_nil_r.
    - rewrite !fwp_seq. generalize 0%nat. induction IH as [|x xs Hx Hxs IH']; intros i; cbn [fwp_list map]; [easy|].
      rewrite map_app, IH'. f_equal. rewrite (Hx (prefix ++ [Idx i])), (Hx ([] ++ [Idx i])), map_map. apply map_ext. intros [p y]. cbn. now rewrite <- app_assoc.
    - cbn [flatten_with_path]. induction IH as [|[k x] xs Hx Hxs IH']; cbn [flat_map map fst snd]; [easy|].
      rewrite map_app, IH'. f_equal. cbn [snd] in Hx. rewrite (Hx (prefix ++ [Key k])), (Hx ([] ++ [Key k])), map_map. apply map_ext. intros [p y]. cbn. now rewrite <- app_assoc. }
  intros prefix q x. rewrite H, in_map_iff. split.
  - intros ([p y] & Heq & Hin). cbn in Heq. injection Heq as <- ->. now exists p.
  - intros (p & -> & Hin). exists (p, x). now split.
Qed.

Lemma NoDup_app_intro {X} (l1 l2 : list X) : NoDup l1 -> NoDup l2 -> (forall x, In x l1 -> In x l2 -> False) -> NoDup (l1 ++ l2).
Proof.
  induction 1 as [|x l1 Hx H IH]; intros H2 Hd; cbn; [easy|]. constructor.
  - rewrite in_app_iff. intros [?|?]; [easy|]. apply (Hd x); [now left|easy].
  - apply IH; [easy|]. intros y Hy. apply Hd. now right.
Qed.

(** flatten_with_path lists the same leaves as flatten in the same order, each with the path
    that leads to it; no path is listed twice and no leaf is left out. *)
Theorem C51_paths {A} (t : tree A) : keys_distinct t ->
  map snd (flatten_with_path [] t) = flatten t /\
  (forall p x, In (p, x) (flatten_with_path [] t) <-> at_path t p = Some (Leaf x)) /\
  NoDup (map fst (flatten_with_path [] t)).
Proof.
  intros Hk.
  assert (H1 : forall prefix, map snd (flatten_with_path prefix t) = flatten t).
  { clear Hk. induction t as [a|tag items IH|tag items IH] using tree_rec'; intros prefix; [easy| |].
    - rewrite fwp_seq. cbn. generalize 0%nat. induction IH as [|x xs Hx Hxs IH']; intros i; cbn; [easy|].
      now rewrite map_app, Hx, IH'.
    - cbn. induction IH as [|x xs Hx Hxs IH']; cbn; [easy|]. now rewrite map_app, Hx, IH'. }
  assert (H2 : forall p x, In (p, x) (flatten_with_path [] t) <-> at_path t p = Some (Leaf x)).
  { clear H1. induction t as [a|tag items IH|tag items IH] using tree_rec'; intros p y.
    - cbn. destruct p; cbn; split; [intros [[= <-]|[]]; easy|intros [= <-]; now left|intros [[=]|[]]|discriminate].
    - rewrite fwp_seq. apply keys_distinct_seq in Hk.
      assert (H : forall i, In (p, y) (fwp_list [] i items) <->
        exists j q, p = Idx (i + j) :: q /\ match nth_error items j with Some u => at_path u q | None => None end = Some (Leaf y)).
      { induction IH as [|x xs Hx Hxs IH']; intros i; cbn [fwp_list].
        - cbn. split; [easy|]. intros ([|j] & q & _ & Hj); discriminate.
        - inversion Hk as [|? ? Hk1 Hk2]; subst. rewrite in_app_iff, fwp_prefix, (IH' Hk2). split.
          + intros [(q & -> & Hq)|(j & q & -> & Hq)].
            * exists 0%nat, q. cbn. rewrite Nat.add_0_r. split; [easy|]. now apply Hx.
            * exists (S j), q. split; [f_equal; f_equal; lia|exact Hq].
          + intros ([|j] & q & -> & Hq).
            * left. exists q. rewrite Nat.add_0_r. repeat split. now apply Hx.
            * right. exists j, q. split; [f_equal; f_equal; lia|exact Hq]. }
      rewrite H. destruct p as [|[j|k] q]; cbn.
      + split; [intros (? & ? & [=] & _)|discriminate].
      + split; [intros (? & ? & [= -> ->] & Hq); exact Hq|intros Hq; now exists j, q].
      + split; [intros (? & ? & [=] & _)|discriminate].
    - apply keys_distinct_dict in Hk as [Hnd Hk]. cbn [flatten_with_path]. rewrite in_flat_map.
      rewrite Forall_forall in IH, Hk. split.
      + intros ([k x] & Hin & Hp). apply fwp_prefix in Hp as (q & -> & Hq). cbn.
        rewrite (lookup_nodup _ _ _ Hnd Hin). apply (IH _ Hin (Hk _ Hin)). exact Hq.
      + destruct p as [|[j|k] q]; cbn; try discriminate. destruct (lookup k items) as [u|] eqn:E; [|discriminate].
        intros Hq. apply lookup_in in E. exists (k, u). split; [easy|]. apply fwp_prefix. exists q. repeat split.
        now apply (IH _ E (Hk _ E)). }
  split; [apply H1|]. split; [apply H2|].
  clear H1 H2. revert Hk. generalize (@nil step_of). induction t as [a|tag items IH|tag items IH] using tree_rec'; intros prefix Hk.
  - cbn. constructor; [easy|constructor].
  - rewrite fwp_seq. apply keys_distinct_seq in Hk. generalize 0%nat.
    induction IH as [|x xs Hx Hxs IH']; intros i; cbn [fwp_list map]; [constructor|].
    inversion Hk as [|? ? Hk1 Hk2]; subst. rewrite map_app.
    assert (Hge : forall (l : list (tree A)) j q, In q (map fst (fwp_list prefix j l)) -> exists m p, q = prefix ++ Idx m :: p /\ (j <= m)%nat).
    { clear. induction l as [|x l IH]; intros j q Hq; cbn in Hq; [easy|]. rewrite map_app in Hq. apply in_app_iff in Hq as [Hq|Hq].
      - apply in_map_iff in Hq as ([q' v] & <- & Hq). apply fwp_prefix in Hq as (p & -> & _). exists j, p. cbn. rewrite <- app_assoc. now split.
      - destruct (IH _ _ Hq) as (m & p & -> & Hm). exists m, p. split; [easy|lia]. }
    apply NoDup_app_intro; [now apply Hx|now apply IH'|].
    intros q Hq1 Hq2. apply Hge in Hq2 as (m & p & -> & Hm).
    apply in_map_iff in Hq1 as ([q' v] & Heq & Hq). cbn in Heq. subst q'. apply fwp_prefix in Hq as (p' & Heq & _).
    rewrite <- app_assoc in Heq. apply app_inv_head in Heq. cbn in Heq. injection Heq as -> _. lia.
  - apply keys_distinct_dict in Hk as [Hnd Hk]. cbn [flatten_with_path].
    induction IH as [|[k x] xs Hx Hxs IH']; cbn [flat_map map fst snd]; [constructor|].
    inversion Hk as [|? ? Hk1 Hk2]; subst. inversion Hnd as [|? ? Hni Hnd']; subst. rewrite map_app.
    apply NoDup_app_intro; [now apply Hx|now apply IH'|].
    intros q Hq1 Hq2. apply in_map_iff in Hq1 as ([q' v] & Heq & Hq). cbn in Heq. subst q'. apply fwp_prefix in Hq as (p' & -> & _).
    apply in_map_iff in Hq2 as ([q' v'] & Heq & Hq'). cbn in Heq. subst q'. apply in_flat_map in Hq' as ([k' x'] & Hin & Hq').
    apply fwp_prefix in Hq' as (p'' & Heq & _). rewrite <- !app_assoc in Heq. apply app_inv_head in Heq. cbn in Heq. injection Heq as -> _.
    apply Hni. apply in_map_iff. now exists (k', x').
Qed.

Example C51_paths_holds :
  let t := Dict 0 [(7%nat, Leaf 10); (2%nat, Seq 0 [Leaf 20; Leaf 30])] in
  keys_distinct t /\
  flatten_with_path [] t = [([Key 7], 10); ([Key 2; Idx 0], 20); ([Key 2; Idx 1], 30)] /\
  map_leaves (fun x => Ok (x + 1)) t = Ok (Dict 0 [(7%nat, Leaf 11); (2%nat, Seq 0 [Leaf 21; Leaf 31])]) /\
  unflatten_as t [1; 2] = Raise RuntimeError.
Proof. cbn. repeat split; repeat constructor; cbn; intuition discriminate. Qed.

(** ** map_structure_with_path *)
Fixpoint map_rows_p {A B} prefix (f : list step_of -> A -> list (tree A) -> res B) (i : nat) (items : list (tree A)) (cols : list (list (tree A))) : res (list (tree B)) :=
  match items with
  | [] => Ok []
  | x :: xs => match heads cols with
               | None => Ok []
               | Some hs => let! y := map_structure_with_path (prefix ++ [Idx i]) f x hs in
                            let! ys := map_rows_p prefix f (S i) xs (map (@tl _) cols) in Ok (y :: ys)
               end
  end.
Fixpoint map_entries_p {A B} prefix (f : list step_of -> A -> list (tree A) -> res B) (items : list (nat * tree A)) (dicts : list (list (nat * tree A))) : res (list (nat * tree B)) :=
  match items with
  | [] => Ok []
  | (k, x) :: xs => let! hs := lookups k dicts in
                    let! y := map_structure_with_path (prefix ++ [Key k]) f x hs in let! ys := map_entries_p prefix f xs dicts in Ok ((k, y) :: ys)
  end.
Lemma map_structure_p_seq {A B} prefix (f : list step_of -> A -> list (tree A) -> res B) tag items others :
  map_structure_with_path prefix f (Seq tag items) others =
  let! cols := sequence (map seq_items others) in let! items' := map_rows_p prefix f 0 items cols in Ok (Seq tag items').
Proof.
  cbn [map_structure_with_path]. destruct (sequence (map seq_items others)) as [cols|e|]; cbn [bind]; [|easy|easy]. f_equal.
  generalize 0%nat. revert cols. induction items as [|x xs IH]; intros cols i; cbn [map_rows_p]; [easy|].
  destruct (heads cols); [|easy]. destruct (map_structure_with_path _ f x l); cbn [bind]; [|easy|easy]. now rewrite IH.
Qed.
Lemma map_structure_p_dict {A B} prefix (f : list step_of -> A -> list (tree A) -> res B) tag items others :
  map_structure_with_path prefix f (Dict tag items) others =
  let! dicts := sequence (map dict_items others) in
  if negb (same_keys items dicts) then Raise KeyError else let! items' := map_entries_p prefix f items dicts in Ok (Dict tag items').
Proof.
  cbn [map_structure_with_path]. destruct (sequence (map dict_items others)) as [dicts|e|]; cbn [bind]; [|easy|easy].
  destruct (negb _); [easy|]. f_equal.
  induction items as [|[k x] xs IH]; cbn [map_entries_p]; [easy|]. unfold lookups.
  destruct (sequence _); cbn [bind]; [|easy|easy]. destruct (map_structure_with_path _ f x a); cbn [bind]; [|easy|easy]. now rewrite IH.
Qed.

(** A function that ignores the path: the same as map_structure, for any structures at all. *)
Theorem C51_with_path_ignored {A B} (f : A -> list (tree A) -> res B) a others :
  map_structure_with_path [] (fun _ => f) a others = map_structure f a others.
Proof.
  generalize (@nil step_of). revert others.
  induction a as [x|tag items IH|tag items IH] using tree_rec'; intros others prefix; [easy| |].
  - rewrite map_structure_p_seq, map_structure_seq. destruct (sequence _) as [cols|e|]; cbn [bind]; [|easy|easy]. f_equal.
    generalize 0%nat. revert cols. induction IH as [|x xs Hx Hxs IH']; intros cols i; cbn; [easy|].
    destruct (heads cols); [|easy]. now rewrite Hx, IH'.
  - rewrite map_structure_p_dict, map_structure_dict. destruct (sequence _) as [dicts|e|]; cbn [bind]; [|easy|easy].
    destruct (negb _); [easy|]. f_equal. induction IH as [|[k x] xs Hx Hxs IH']; cbn; [easy|].
    destruct (lookups k dicts); cbn; [|easy|easy]. cbn in Hx. now rewrite Hx, IH'.
Qed.

(** Otherwise it is called, for every leaf, with the path that leads to it (one structure). *)
Theorem C51_with_path {A B} (f : list step_of -> A -> res B) (t : tree A) :
  map_structure_with_path [] (fun p x _ => f p x) t [] =
  match sequence (map (fun px => f (fst px) (snd px)) (flatten_with_path [] t)) with
  | Ok l => unflatten_as t l
  | Raise e => Raise e
  | OutOfFuel => OutOfFuel
  end.
Proof.
  assert (Hlen : forall (u : tree A) prefix, length (flatten_with_path prefix u) = length (flatten u)).
  { induction u as [a|tag items IH|tag items IH] using tree_rec'; intros prefix; [easy| |].
    - rewrite fwp_seq. cbn. generalize 0%nat. induction IH as [|x xs Hx Hxs IH']; intros i; cbn; [easy|].
      now rewrite !app_length, Hx, IH'.
    - cbn. induction IH as [|x xs Hx Hxs IH']; cbn; [easy|]. now rewrite !app_length, Hx, IH'. }
  assert (H : forall rest prefix,
    map_structure_with_path prefix (fun p x _ => f p x) t [] =
    match sequence (map (fun px => f (fst px) (snd px)) (flatten_with_path prefix t)) with
    | Ok l => let! (t', _) := unflatten_iter_as t (l ++ rest) in Ok t'
    | Raise e => Raise e | OutOfFuel => OutOfFuel end).
  { induction t as [a|tag items IH|tag items IH] using tree_rec'; intros rest prefix.
    - cbn. now destruct (f prefix a).
    - rewrite map_structure_p_seq, fwp_seq. cbn [map sequence bind].
      assert (E : forall rest i,
        map_rows_p prefix (fun p x _ => f p x) i items [] =
        match sequence (map (fun px => f (fst px) (snd px)) (fwp_list prefix i items)) with
        | Ok l => let! (t', _) := unflatten_list items (l ++ rest) in Ok t'
        | Raise e => Raise e | OutOfFuel => OutOfFuel end).
      { induction IH as [|x xs Hx Hxs IH']; intros rest' i; cbn [map_rows_p fwp_list map sequence heads]; [easy|].
        rewrite map_app, sequence_app.
        destruct (sequence (map _ (flatten_with_path (prefix ++ [Idx i]) x))) as [l1|e|] eqn:E1; cbn [bind].
        - pose proof (sequence_length _ _ E1) as Hl1. rewrite map_length, Hlen in Hl1.
          destruct (sequence (map _ (fwp_list prefix (S i) xs))) as [l2|e|] eqn:E2; cbn [bind].
          + rewrite (Hx (l2 ++ rest')), (IH' rest'), E1, E2. rewrite <- app_assoc. cbn.
            destruct (unflatten_app x l1 (l2 ++ rest') Hl1) as (y & -> & _). cbn.
            destruct (unflatten_list xs (l2 ++ rest')) as [[ys l3]|e|]; easy.
          + rewrite (Hx []), (IH' []), E1, E2. destruct (unflatten_app x l1 [] Hl1) as (y & -> & _). easy.
          + rewrite (Hx []), (IH' []), E1, E2. destruct (unflatten_app x l1 [] Hl1) as (y & -> & _). easy.
        - now rewrite (Hx []), E1.
        - now rewrite (Hx []), E1. }
      rewrite (E rest). destruct (sequence (map _ (fwp_list prefix 0 items))); cbn [bind]; [|easy|easy].
      rewrite unflatten_seq_eq. destruct (unflatten_list items (a ++ rest)) as [[? ?]|?|]; easy.
    - rewrite map_structure_p_dict. cbn [map sequence bind flatten_with_path same_keys forallb negb].
      assert (E : forall rest,
        map_entries_p prefix (fun p x _ => f p x) items [] =
        match sequence (map (fun px => f (fst px) (snd px)) (flat_map (fun kv => flatten_with_path (prefix ++ [Key (fst kv)]) (snd kv)) items)) with
        | Ok l => let! (t', _) := unflatten_dict items (l ++ rest) in Ok t'
        | Raise e => Raise e | OutOfFuel => OutOfFuel end).
      { induction IH as [|[k x] xs Hx Hxs IH']; intros rest'; cbn [map_entries_p flat_map map sequence snd fst lookups bind]; [easy|].
        cbn [snd] in Hx. rewrite map_app, sequence_app. change (lookups k []) with (@Ok (list (tree A)) []). cbn [bind].
        destruct (sequence (map _ (flatten_with_path (prefix ++ [Key k]) x))) as [l1|e|] eqn:E1; cbn [bind].
        - pose proof (sequence_length _ _ E1) as Hl1. rewrite map_length, Hlen in Hl1.
          destruct (sequence (map _ (flat_map _ xs))) as [l2|e|] eqn:E2; cbn [bind].
          + rewrite (Hx (l2 ++ rest')), (IH' rest'), E1. rewrite <- app_assoc. cbn.
            destruct (unflatten_app x l1 (l2 ++ rest') Hl1) as (y & -> & _). cbn.
            destruct (unflatten_dict xs (l2 ++ rest')) as [[ys l3]|e|]; easy.
          + rewrite (Hx []), (IH' []), E1. destruct (unflatten_app x l1 [] Hl1) as (y & -> & _). easy.
          + rewrite (Hx []), (IH' []), E1. destruct (unflatten_app x l1 [] Hl1) as (y & -> & _). easy.
        - now rewrite (Hx []), E1.
        - now rewrite (Hx []), E1. }
      rewrite (E rest). destruct (sequence (map _ (flat_map _ items))); cbn [bind]; [|easy|easy].
      rewrite unflatten_dict_eq. destruct (unflatten_dict items (a ++ rest)) as [[? ?]|?|]; easy. }
  rewrite (H []). destruct (sequence _); [|easy|easy]. unfold unflatten_as. now rewrite app_nil_r.
Qed.

(** ** assert_same_structure *)
Fixpoint assert_list {A} (items items' : list (tree A)) : bool :=
  match items, items' with x :: xs, y :: ys => assert_same_structure x y && assert_list xs ys | _, _ => true end.
Fixpoint assert_dict {A} (items items' : list (nat * tree A)) : bool :=
  match items with
  | [] => true
  | (k, x) :: xs => match lookup k items' with Some y => assert_same_structure x y | None => false end && assert_dict xs items'
  end.
Lemma assert_seq {A} tag tag' (xs ys : list (tree A)) :
  assert_same_structure (Seq tag xs) (Seq tag' ys) = Nat.eqb tag tag' && Nat.eqb (length xs) (length ys) && assert_list xs ys.
Proof. cbn [assert_same_structure]. f_equal. revert ys. induction xs as [|x xs IH]; intros [|y ys]; cbn; try easy. now rewrite IH. Qed.
Lemma assert_dict_eq {A} tag tag' (xs ys : list (nat * tree A)) :
  assert_same_structure (Dict tag xs) (Dict tag' ys) = Nat.eqb tag tag' && same_keys xs [ys] && assert_dict xs ys.
Proof. cbn [assert_same_structure]. f_equal. induction xs as [|[k x] xs IH]; cbn; try easy. now rewrite IH. Qed.

Lemma assert_dict_iff {A} (xs ys : list (nat * tree A)) :
  assert_dict xs ys = true <-> Forall (fun kx => exists y, lookup (fst kx) ys = Some y /\ assert_same_structure (snd kx) y = true) xs.
Proof.
  induction xs as [|[k x] xs IH]; cbn; [easy|]. rewrite andb_true_iff, IH, Forall_cons_iff. apply and_iff_compat_r.
  cbn. destruct (lookup k ys) as [y|]; [|split; [discriminate|intros (? & [=] & _)]].
  split; [intros H; now exists y|intros (y' & [= <-] & H); exact H].
Qed.

(** Two structures agree exactly when assert_same_structure accepts them in both orders. *)
Theorem C51_assert {A} (a b : tree A) : keys_distinct a -> keys_distinct b ->
  (same_structure a b <-> assert_same_structure a b = true /\ assert_same_structure b a = true).
Proof.
  assert (Hsym : forall u v : tree A, same_structure u v -> same_structure v u) by (intros u v H p; now rewrite H).
  assert (Hfw : forall a b : tree A, keys_distinct a -> same_structure a b -> assert_same_structure a b = true).
  { clear a b. induction a as [x|tag items IH|tag items IH] using tree_rec'; intros b Hk Hs; [easy| |].
    - destruct (same_seq _ _ _ Hs) as (ys & -> & Hf). rewrite assert_seq, Nat.eqb_refl. cbn [andb].
      assert (Hl : length items = length ys) by (clear - Hf; induction Hf; cbn; lia).
      rewrite Hl, Nat.eqb_refl. cbn [andb]. apply keys_distinct_seq in Hk. clear Hs Hl. revert ys Hf.
      induction IH as [|x xs Hx Hxs IH']; intros ys Hf; inversion Hf as [|? y ? ys' Hxy Hr]; subst; [easy|].
      inversion Hk; subst. cbn. rewrite (Hx y), (IH' ltac:(easy) ys'); easy.
    - destruct (same_dict _ _ _ Hs) as (ys & -> & Hf). rewrite assert_dict_eq, Nat.eqb_refl. cbn [andb].
      apply keys_distinct_dict in Hk as [Hnd Hk]. apply andb_true_iff. split.
      + apply same_keys_iff. constructor; [|constructor]. intros k. specialize (Hf k). split; intros Hin.
        * destruct (lookup_some_key _ _ Hin) as (x & E). rewrite E in Hf. destruct (lookup k ys) as [y|] eqn:E'; [|easy].
          apply lookup_in in E'. apply in_map_iff. now exists (k, y).
        * destruct (lookup_some_key _ _ Hin) as (x & E). rewrite E in Hf. destruct (lookup k items) as [y|] eqn:E'; [|easy].
          apply lookup_in in E'. apply in_map_iff. now exists (k, y).
      + apply assert_dict_iff. rewrite Forall_forall in *. intros [k x] Hin. cbn. specialize (Hf k).
        rewrite (lookup_nodup _ _ _ Hnd Hin) in Hf. destruct (lookup k ys) as [y|]; [|easy].
        exists y. split; [easy|]. now apply (IH _ Hin y (Hk _ Hin)). }
  intros Hka Hkb. split; [intros H; split; apply Hfw; auto|]. intros [H1 H2].
  revert b Hka Hkb H1 H2. induction a as [x|tag items IH|tag items IH] using tree_rec'; intros b Hka Hkb H1 H2.
  - destruct b as [y| |]; try discriminate. intros [|s p]; reflexivity.
  - destruct b as [y|tag' ys|]; try discriminate. rewrite assert_seq in H1, H2.
    apply andb_true_iff in H1 as [H1 Hl1]. apply andb_true_iff in H1 as [Ht Hlen].
    apply andb_true_iff in H2 as [_ Hl2]. apply Nat.eqb_eq in Ht, Hlen. subst tag'.
    apply keys_distinct_seq in Hka, Hkb.
    assert (Hf : Forall2 same_structure items ys).
    { revert ys Hkb Hlen Hl1 Hl2. induction IH as [|x xs Hx Hxs IH']; intros [|y ys] Hkb Hlen Hl1 Hl2; try discriminate; [constructor|].
      cbn in Hl1, Hl2. apply andb_true_iff in Hl1 as [? ?], Hl2 as [? ?]. inversion Hka; inversion Hkb; subst.
      constructor; [now apply Hx|apply IH'; auto]. }
    intros [|[i|k] p]; cbn; try reflexivity. pose proof (nth_error_Forall2 _ _ _ i Hf) as Hn.
    destruct (nth_error items i), (nth_error ys i); try easy.
  - destruct b as [y| |tag' ys]; try discriminate. rewrite assert_dict_eq in H1, H2.
    apply andb_true_iff in H1 as [H1 Hl1]. apply andb_true_iff in H1 as [Ht Hsk].
    apply andb_true_iff in H2 as [_ Hl2]. apply Nat.eqb_eq in Ht. subst tag'.
    apply same_keys_iff in Hsk. inversion Hsk as [|? ? Hsk' _]; subst. clear Hsk.
    apply keys_distinct_dict in Hka as [Hnda Hka], Hkb as [Hndb Hkb].
    apply assert_dict_iff in Hl1, Hl2. rewrite Forall_forall in *.
    intros [|[i|k] p]; cbn; try reflexivity.
    destruct (lookup k items) as [x|] eqn:Ex.
    + apply lookup_in in Ex as Hin. destruct (Hl1 _ Hin) as (y & Ey & Hxy). cbn in Ey, Hxy. rewrite Ey.
      apply lookup_in in Ey as Hin'. destruct (Hl2 _ Hin') as (x' & Ex' & Hyx). cbn in Ex', Hyx.
      assert (x' = x) as -> by congruence.
      apply (IH _ Hin y (Hka _ Hin) (Hkb _ Hin') Hxy Hyx).
    + apply lookup_none in Ex. destruct (lookup k ys) as [y|] eqn:Ey; [|easy]. exfalso. apply Ex, Hsk'.
      apply lookup_in in Ey. apply in_map_iff. now exists (k, y).
Qed.

(** In one order only it may accept structures that do not agree: a leaf against a container. *)
Theorem C51_assert_one_way_refuted : exists a b : tree Z,
  assert_same_structure a b = true /\ assert_same_structure b a = false /\ ~ same_structure a b.
Proof.
  exists (Seq 0 [Leaf 1]), (Seq 0 [Seq 0 [Leaf 1; Leaf 2]]). repeat split. intros H. specialize (H [Idx 0]). discriminate.
Qed.

(** ** map_structure_up_to *)
Fixpoint up_to_list {A B C} (f : tree A -> res B) (items : list (tree C)) (ts : list (tree A)) : res (list (tree B)) :=
  match items, ts with
  | x :: xs, y :: ys => let! z := map_structure_up_to x f y in let! zs := up_to_list f xs ys in Ok (z :: zs)
  | _, _ => Ok []
  end.
Fixpoint up_to_dict {A B C} (f : tree A -> res B) (items : list (nat * tree C)) (ts : list (nat * tree A)) : res (list (nat * tree B)) :=
  match items with
  | [] => Ok []
  | (k, x) :: xs =>
      match lookup k ts with
      | None => Raise KeyError
      | Some y => let! z := map_structure_up_to x f y in let! zs := up_to_dict f xs ts in Ok ((k, z) :: zs)
      end
  end.
Lemma up_to_seq {A B C} (f : tree A -> res B) tag (items : list (tree C)) t :
  map_structure_up_to (Seq tag items) f t = let! ts := seq_items t in let! zs := up_to_list f items ts in Ok (Seq tag zs).
Proof.
  cbn [map_structure_up_to]. destruct (seq_items t) as [ts|e|]; cbn [bind]; [|easy|easy]. f_equal.
  revert ts. induction items as [|x xs IH]; intros [|y ys]; cbn [up_to_list]; try easy.
  destruct (map_structure_up_to x f y); cbn [bind]; [|easy|easy]. now rewrite IH.
Qed.
Lemma up_to_dict_eq {A B C} (f : tree A -> res B) tag (items : list (nat * tree C)) t :
  map_structure_up_to (Dict tag items) f t = let! ts := dict_items t in let! zs := up_to_dict f items ts in Ok (Dict tag zs).
Proof.
  cbn [map_structure_up_to]. destruct (dict_items t) as [ts|e|]; cbn [bind]; [|easy|easy]. f_equal.
  induction items as [|[k x] xs IH]; cbn [up_to_dict]; [easy|]. destruct (lookup k ts); [|easy].
  destruct (map_structure_up_to x f t0); cbn [bind]; [|easy|easy]. now rewrite IH.
Qed.

(** [t] reaches at least as deep as [shallow]: at every path of [shallow] it has something, a
    sequence where [shallow] has one, a mapping where [shallow] has one. *)
Definition covers {A C} (shallow : tree C) (t : tree A) : Prop :=
  forall p s, at_path shallow p = Some s -> exists u, at_path t p = Some u /\
    match s, u with Leaf _, _ => True | Seq _ _, Seq _ _ => True | Dict _ _, Dict _ _ => True | _, _ => False end.

(** The function is applied to whatever [t] holds at the leaves of [shallow]. *)
Theorem C51_up_to {A B C} (f : tree A -> B) (shallow : tree C) (t : tree A) :
  keys_distinct shallow -> covers shallow t ->
  exists r, map_structure_up_to shallow (fun u => Ok (f u)) t = Ok r /\ same_structure shallow r /\
    forall p c, at_path shallow p = Some (Leaf c) ->
    exists u, at_path t p = Some u /\ at_path r p = Some (Leaf (f u)).
Proof.
  intros Hk Hc.
  enough (H : exists r, map_structure_up_to shallow (fun u => Ok (f u)) t = Ok r /\ Same shallow r /\
    forall p c, at_path shallow p = Some (Leaf c) -> exists u, at_path t p = Some u /\ at_path r p = Some (Leaf (f u))).
  { destruct H as (r & H1 & H2 & H3). exists r. split; [easy|]. split; [now apply Same_same|exact H3]. }
  revert t Hc. induction shallow as [c|tag items IH|tag items IH] using tree_rec'; intros t Hc.
  - exists (Leaf (f t)). repeat split; [constructor|]. intros [|? ?] c' [=]. now exists t.
  - destruct (Hc [] _ eq_refl) as (u & [= <-] & Hu). destruct t as [|tag' ts|]; try easy. rewrite up_to_seq. cbn [seq_items bind].
    apply keys_distinct_seq in Hk.
    assert (H : exists zs, up_to_list (fun u => Ok (f u)) items ts = Ok zs /\ Forall2 Same items zs /\
      forall i p c, match nth_error items i with Some s => at_path s p | None => None end = Some (Leaf c) ->
      exists u, match nth_error ts i with Some s => at_path s p | None => None end = Some u /\
                match nth_error zs i with Some s => at_path s p | None => None end = Some (Leaf (f u))).
    { assert (Hc' : forall i p s, match nth_error items i with Some s => at_path s p | None => None end = Some s ->
        exists u, match nth_error ts i with Some s => at_path s p | None => None end = Some u /\
          match s, u with Leaf _, _ => True | Seq _ _, Seq _ _ => True | Dict _ _, Dict _ _ => True | _, _ => False end).
      { intros i p s Hs. apply (Hc (Idx i :: p) s Hs). }
      clear Hc Hu. revert ts Hc'. induction IH as [|x xs Hx Hxs IH']; intros ts Hc'.
      - exists []. repeat split; [constructor|]. intros [|i]; discriminate.
      - inversion Hk as [|? ? Hk1 Hk2]; subst. destruct ts as [|y ys]; [destruct (Hc' 0%nat [] x eq_refl) as (? & [=] & _)|].
        destruct (Hx Hk1 y) as (z & Hz1 & Hz2 & Hz3). { intros p s Hs. apply (Hc' 0%nat p s Hs). }
        destruct (IH' Hk2 ys) as (zs & Hzs1 & Hzs2 & Hzs3). { intros i p s Hs. apply (Hc' (S i) p s Hs). }
        cbn [up_to_list]. rewrite Hz1. cbn [bind]. rewrite Hzs1. cbn [bind]. exists (z :: zs). split; [easy|]. split; [now constructor|].
        intros [|i] p c Hp; [now apply Hz3 in Hp|now apply Hzs3 in Hp]. }
    destruct H as (zs & -> & H2 & H3). cbn. exists (Seq tag zs). split; [easy|]. split; [now constructor|].
    intros [|[i|k] p] c Hp; try discriminate. apply (H3 i p c Hp).
  - destruct (Hc [] _ eq_refl) as (u & [= <-] & Hu). destruct t as [| |tag' ts]; try easy. rewrite up_to_dict_eq. cbn [dict_items bind].
    apply keys_distinct_dict in Hk as [Hnd Hk]. rewrite Forall_forall in IH, Hk.
    assert (H : forall xs, incl xs items -> exists zs, up_to_dict (fun u => Ok (f u)) xs ts = Ok zs /\
      Forall2 (fun x z => fst x = fst z /\ Same (snd x) (snd z)) xs zs /\
      forall k p c, match lookup k xs with Some s => at_path s p | None => None end = Some (Leaf c) ->
      exists u, match lookup k ts with Some s => at_path s p | None => None end = Some u /\
                match lookup k zs with Some s => at_path s p | None => None end = Some (Leaf (f u))).
    { induction xs as [|[k x] xs IHx]; intros Hincl.
      - exists []. repeat split; [constructor|discriminate].
      - assert (Hin : In (k, x) items) by (apply Hincl; now left).
        pose proof (lookup_nodup _ _ _ Hnd Hin) as Hl.
        destruct (Hc [Key k] x) as (y & Hy & _). { cbn. now rewrite Hl. }
        cbn in Hy. destruct (lookup k ts) as [y'|] eqn:Ey; [|discriminate]. injection Hy as ->.
        destruct (IH _ Hin (Hk _ Hin) y) as (z & Hz1 & Hz2 & Hz3).
        { intros p s Hs. destruct (Hc (Key k :: p) s) as (u & Hu1 & Hu2). { cbn. now rewrite Hl. }
          cbn in Hu1. rewrite Ey in Hu1. now exists u. }
        destruct IHx as (zs & Hzs1 & Hzs2 & Hzs3). { intros w Hw. apply Hincl. now right. }
        cbn [up_to_dict]. rewrite Ey. cbn in Hz1. rewrite Hz1. cbn [bind]. rewrite Hzs1. cbn [bind].
        exists ((k, z) :: zs). split; [easy|]. split; [now constructor|]. intros k' p c Hp.
        unfold lookup in Hp |- * at 2. cbn in Hp |- *. destruct (Nat.eqb_spec k k') as [<-|Hne].
        + rewrite Ey. now apply Hz3 in Hp.
        + now apply Hzs3 in Hp. }
    destruct (H items (fun w Hw => Hw)) as (zs & -> & H2 & H3). cbn. exists (Dict tag zs). split; [easy|]. split; [now constructor|].
    intros [|[i|k] p] c Hp; try discriminate. apply (H3 k p c Hp).
Qed.

Example C51_up_to_holds :
  map_structure_up_to (Dict 0 [(1%nat, Leaf tt); (2%nat, Seq 0 [Leaf tt])]) (fun u => Ok (length (flatten u)))
    (Dict 0 [(2%nat, Seq 0 [Seq 1 [Leaf 1; Leaf 2]]); (1%nat, Leaf 3)]) =
  Ok (Dict 0 [(1%nat, Leaf 1%nat); (2%nat, Seq 0 [Leaf 2%nat])]).
Proof. reflexivity. Qed.
