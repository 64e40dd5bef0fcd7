(** Proofs about element specs. *)
From Verif Require Import Base MapDatasets Tree SharedMemory Iter Interleave ElementSpec ElementConforms.

Local Ltac spl := repeat match goal with |- _ /\ _ => split end.

(** ** Results *)

Lemma bind_ok {A B} (r : res A) (f : A -> res B) b : bind r f = Ok b -> exists a, r = Ok a /\ f a = Ok b.
Proof. destruct r; cbn; intros H; try discriminate. eauto. Qed.
Lemma seq_forall2 {A} (l : list (res A)) l' : sequence l = Ok l' -> Forall2 (fun r a => r = Ok a) l l'.
Proof.
  revert l'. induction l as [|r l IH]; cbn; intros l' H.
  - injection H as <-. constructor.
  - apply bind_ok in H. destruct H as (a & -> & H). apply bind_ok in H. destruct H as (ys & H & E).
    injection E as <-. constructor; auto.
Qed.
Lemma seq_map {A B} (f : A -> res B) l l' : sequence (map f l) = Ok l' -> Forall2 (fun x y => f x = Ok y) l l'.
Proof.
  intros H. apply seq_forall2 in H. revert l' H. induction l as [|x l IH]; intros l' H; inversion H; subst; constructor; auto.
Qed.
Lemma F2_len {A B} (R : A -> B -> Prop) l l' : Forall2 R l l' -> length l' = length l.
Proof. induction 1; cbn; congruence. Qed.
Lemma F2_in_r {A B} (R : A -> B -> Prop) l l' y : Forall2 R l l' -> In y l' -> exists x, In x l /\ R x y.
Proof. induction 1; cbn; [easy|]. intros [->|H']; eauto. destruct (IHForall2 H') as (z & ? & ?). eauto. Qed.
Lemma F2_impl {A B} (R Q : A -> B -> Prop) l l' :
  (forall x y, In x l -> In y l' -> R x y -> Q x y) -> Forall2 R l l' -> Forall2 Q l l'.
Proof.
  intros H F. revert H. induction F; intros H1; constructor.
  - apply H1; [now left|now left|assumption].
  - apply IHF. intros; apply H1; [now right|now right|assumption].
Qed.

(** ** Trees *)

Section TreeInd.
Context {A : Type} (P : tree A -> Prop).
Hypothesis Hleaf : forall a, P (Leaf a).
Hypothesis Hseq : forall tag items, Forall P items -> P (Seq tag items).
Hypothesis Hdict : forall tag items, Forall P (map snd items) -> P (Dict tag items).
Fixpoint tree_induct (t : tree A) : P t :=
  match t with
  | Leaf a => Hleaf a
  | Seq tag items =>
      Hseq tag items ((fix go l : Forall P l := match l with [] => Forall_nil _ | x :: l => Forall_cons _ (tree_induct x) (go l) end) items)
  | Dict tag items =>
      Hdict tag items ((fix go l : Forall P (map snd l) :=
        match l with [] => Forall_nil _ | kx :: l => Forall_cons _ (tree_induct (snd kx)) (go l) end) items)
  end.
End TreeInd.

Section Tmap.
Context {A B : Type} (g : A -> B).
Fixpoint tmap (t : tree A) : tree B :=
  match t with
  | Leaf a => Leaf (g a)
  | Seq tag items => Seq tag (map tmap items)
  | Dict tag items => Dict tag (map (fun kx => (fst kx, tmap (snd kx))) items)
  end.
End Tmap.

Lemma map_leaves_tmap {A B} (g : A -> B) (t : tree A) : map_leaves (fun x => Ok (g x)) t = Ok (tmap g t).
Proof.
  unfold map_leaves. induction t as [a|tag items IH|tag items IH] using tree_induct; cbn [map_structure tmap map sequence bind].
  - reflexivity.
  - enough (E : forall items, Forall (fun t => map_structure (fun x _ => Ok (g x)) t [] = Ok (tmap g t)) items ->
      (fix go (items : list (tree A)) (cols : list (list (tree A))) : res (list (tree B)) :=
        match items with
        | [] => Ok []
        | x :: xs => match heads cols with None => Ok [] | Some hs =>
            let! y := map_structure (fun x _ => Ok (g x)) x hs in let! ys := go xs (map (@tl _) cols) in Ok (y :: ys) end
        end) items [] = Ok (map (tmap g) items)) by now rewrite E.
    clear. induction items as [|x xs IH]; intros H; cbn [heads map]; [reflexivity|].
    inversion H; subst. rewrite H2. cbn [bind]. rewrite IH by assumption. reflexivity.
  - cbn [same_keys forallb negb].
    enough (E : forall items, Forall (fun t => map_structure (fun x _ => Ok (g x)) t [] = Ok (tmap g t)) (map snd items) ->
      (fix go (items : list (nat * tree A)) : res (list (nat * tree B)) :=
             match items with
             | [] => Ok []
             | (k, x) :: xs =>
                 let! y := map_structure (fun x _ => Ok (g x)) x [] in let! ys := go xs in Ok ((k, y) :: ys)
             end) items = Ok (map (fun kx => (fst kx, tmap g (snd kx))) items)) by now rewrite E.
    clear. induction items as [|[k x] xs IH]; intros H; cbn [map sequence bind fst snd]; [reflexivity|].
    inversion H; subst. cbn [snd] in *. rewrite H2. cbn [bind]. rewrite IH by assumption. reflexivity.
Qed.

(** ** Conforming elements *)

Section Conf.
Context {D V : Type}.
Implicit Types (sp : spec D) (x : elem D V).

Definition leaf_ok (s : sds D) (o : option (array D V)) : Prop :=
  match o with None => False | Some a => a_dtype a = s_dtype s /\ Forall2 dim_matches (s_shape s) (a_shape a) end.

Lemma conf_leaf s x : conforms (Leaf s) x -> exists o, x = Leaf o /\ leaf_ok s o.
Proof. inversion 1; subst. eexists. split; [reflexivity|]. split; assumption. Qed.
Lemma conf_leaf' s o : leaf_ok s o -> @conforms D V (Leaf s) (Leaf o).
Proof. destruct o; cbn; [|easy]. intros []. now constructor. Qed.

Lemma heads_spec {X} (cols : list (list X)) hs : heads cols = Some hs -> Forall2 (fun c h => exists t, c = h :: t) cols hs.
Proof.
  revert hs. induction cols as [|[|x c] cols IH]; cbn; intros hs H; try discriminate.
  - injection H as <-. constructor.
  - destruct (heads cols); [|discriminate]. injection H as <-. constructor; eauto.
Qed.
Lemma heads_none {X} (cols : list (list X)) : heads cols = None -> In [] cols.
Proof. induction cols as [|[|x c] cols IH]; cbn; intros H; [discriminate|now left|]. destruct (heads cols); [discriminate|auto]. Qed.

Lemma lookup_pos {X Y} (R : X -> Y -> Prop) (sps : list (nat * X)) (d : list (nat * Y)) k s t :
  NoDup (map fst sps) -> map fst sps = map fst d -> Forall2 R (map snd sps) (map snd d) ->
  In (k, s) sps -> lookup k d = Some t -> R s t.
Proof.
  revert d. induction sps as [|[k0 s0] sps IH]; intros [|[k1 t1] d] Hnd Hk HF Hin Hl; cbn in *; try easy.
  injection Hk as -> Hk. inversion Hnd; subst. inversion HF; subst. unfold lookup in Hl. cbn [find fst snd] in Hl.
  destruct (Nat.eqb_spec k1 k) as [->|Hne].
  - injection Hl as <-. destruct Hin as [E|Hin]; [now injection E as ->|].
    exfalso. apply H1. rewrite Hk. rewrite <- Hk. apply (in_map fst) in Hin. exact Hin.
  - destruct Hin as [E|Hin]; [congruence|]. eapply IH; eauto.
Qed.

Lemma map_structure_conf (F : option (array D V) -> list (elem D V) -> res (option (array D V))) (g : sds D -> sds D) (n : nat) :
  (forall s o others o', leaf_ok s o -> length others = n -> Forall (conforms (Leaf s)) others -> F o others = Ok o' -> leaf_ok (g s) o') ->
  forall sp x others y, conforms sp x -> length others = n -> Forall (conforms sp) others ->
    map_structure F x others = Ok y -> conforms (tmap g sp) y.
Proof.
  intros HF sp. induction sp as [s|tag sps IH|tag sps IH] using tree_induct; intros x others y Hx Hn Ho E.
  - apply conf_leaf in Hx. destruct Hx as (o & -> & Hl). cbn [map_structure] in E. apply bind_ok in E.
    destruct E as (o' & E & E'). injection E' as <-. apply conf_leaf'. eauto.
  - inversion Hx as [|tag' sps' xs HF2|]; subst. remember (length others) as n eqn:Hn. cbn [map_structure] in E. apply bind_ok in E. destruct E as (cols & Ec & E).
    apply bind_ok in E. destruct E as (items' & E & E'). injection E' as <-. cbn [tmap]. constructor.
    assert (Hc : length cols = length others /\ Forall (Forall2 conforms sps) cols).
    { apply seq_map in Ec. split; [now apply F2_len in Ec|].
      clear - Ec Ho. revert Ho. induction Ec as [|t c ts cs Hh Ht IH]; intros Ho; [constructor|].
      inversion Ho; subst. constructor; [|auto]. inversion H1; subst; cbn in Hh; try discriminate. now injection Hh as <-. }
    destruct Hc as [Hcl Hcf]. rewrite <- Hn in Hcl. clear Ec Ho Hx Hn others.
    revert xs cols items' IH Hcl HF2 Hcf E. induction sps as [|sp sps IHs]; intros xs cols items' IH Hcl HF2 Hcf E.
    + inversion HF2; subst. injection E as <-. constructor.
    + inversion HF2 as [|? x ? xs' Hx1 Hxs]; subst. inversion IH as [|? ? IH1 IH2]; subst.
      destruct (heads cols) as [hs|] eqn:Eh.
      * apply bind_ok in E. destruct E as (y & Ey & E). apply bind_ok in E. destruct E as (ys & Eys & E). injection E as <-.
        cbn [map]. apply heads_spec in Eh. constructor.
        -- eapply IH1; [exact Hx1| |  |exact Ey].
           ++ exact (F2_len _ _ _ Eh).
           ++ clear - Eh Hcf. induction Eh as [|c h cs hs (t & ->) Hh IH]; [constructor|]. inversion Hcf; subst. inversion H1; subst. constructor; auto.
        -- eapply IHs; [exact IH2| |exact Hxs| |exact Eys].
           ++ now rewrite map_length.
           ++ clear - Hcf. induction Hcf as [|c cs Hc Hcs IH]; [constructor|]. cbn [map]. constructor; [|exact IH]. inversion Hc; subst. assumption.
      * exfalso. apply heads_none in Eh. rewrite Forall_forall in Hcf. apply Hcf in Eh. inversion Eh.
  - inversion Hx as [| |tag' sps' xs Hnd Hk HF2]; subst. remember (length others) as n eqn:Hn. cbn [map_structure] in E. apply bind_ok in E. destruct E as (dicts & Ec & E).
    destruct (negb _); [discriminate|]. apply bind_ok in E. destruct E as (items' & E & E'). injection E' as <-. cbn [tmap].
    assert (Hc : length dicts = length others /\ Forall (fun d => map fst sps = map fst d /\ Forall2 conforms (map snd sps) (map snd d)) dicts).
    { apply seq_map in Ec. split; [now apply F2_len in Ec|].
      clear - Ec Ho. revert Ho. induction Ec as [|t c ts cs Hh Ht IH]; intros Ho; [constructor|].
      inversion Ho; subst. constructor; [|auto]. inversion H1; subst; cbn in Hh; try discriminate. now injection Hh as <-. }
    destruct Hc as [Hcl Hcf]. rewrite <- Hn in Hcl. clear Ec Ho Hx Hn others.
    assert (G : forall sub xs items', incl sub sps -> Forall (fun sp => forall x others y, conforms sp x -> length others = n ->
        Forall (conforms sp) others -> map_structure F x others = Ok y -> conforms (tmap g sp) y) (map snd sub) ->
      map fst sub = map fst xs -> Forall2 conforms (map snd sub) (map snd xs) ->
      (fix go (items : list (nat * elem D V)) : res (list (nat * elem D V)) :=
             match items with
             | [] => Ok []
             | (k, x) :: xs =>
                 let! hs := sequence (map (fun d => match lookup k d with Some t => Ok t | None => Raise KeyError end) dicts) in
                 let! y := map_structure F x hs in let! ys := go xs in Ok ((k, y) :: ys)
             end) xs = Ok items' ->
      map fst (map (fun kx => (fst kx, tmap g (snd kx))) sub) = map fst items' /\
      Forall2 conforms (map snd (map (fun kx => (fst kx, tmap g (snd kx))) sub)) (map snd items')).
    { clear - Hcf Hnd Hcl. induction sub as [|[k sp] sub IHs]; intros [|[k1 x] xs] items' Hi IH Hk HF2 E; cbn [map fst snd] in *; try easy.
      - injection E as <-. split; constructor.
      - injection Hk as <- Hk. inversion HF2 as [|? ? ? ? Hx1 Hxs]; subst. inversion IH as [|? ? IH1 IH2]; subst.
        apply bind_ok in E. destruct E as (hs & Eh & E). apply bind_ok in E. destruct E as (y & Ey & E).
        apply bind_ok in E. destruct E as (ys & Eys & E). injection E as <-. cbn [map fst snd].
        apply seq_map in Eh.
        destruct (IHs xs ys) as [K1 K2]; [intros z Hz; apply Hi; now right|assumption|assumption|assumption|assumption|].
        split; [now f_equal|]. constructor; [|assumption].
        eapply IH1; [exact Hx1|etransitivity; [exact (F2_len _ _ _ Eh)|reflexivity]| |exact Ey].
        apply Forall_forall. intros t Ht. destruct (F2_in_r _ _ _ _ Eh Ht) as (d & Hd & El).
        rewrite Forall_forall in Hcf. destruct (Hcf d Hd) as [Hkd Hfd].
        destruct (lookup k d) as [t'|] eqn:El'; [|discriminate]. injection El as ->.
        eapply lookup_pos; [exact Hnd|exact Hkd|exact Hfd|apply Hi; now left|exact El']. }
    destruct (G sps xs items') as [K1 K2]; [easy|assumption|assumption|assumption|exact E|].
    constructor; [|assumption|assumption].
    rewrite map_map. cbn [fst]. exact Hnd.
Qed.

(** *** Batches *)

Variable np : numpy D V.
(** numpy: the common type of equal types is that type. *)
Hypothesis np_same : forall d ds, ds <> [] -> Forall (eq d) ds -> np_result np ds = d.

Definition batched (dim : option Z) (s : sds D) : sds D := mkSds (dim :: s_shape s) (s_dtype s).

Lemma stack_conf s dim o others o' :
  leaf_ok s o -> Forall (conforms (Leaf s)) others -> dim_matches dim (Z.of_nat (S (length others))) ->
  (let! arrays := sequence (map (@as_array D V) (Leaf o :: others)) in let! a := np_stack np arrays in Ok (Some a)) = Ok o' ->
  leaf_ok (batched dim s) o'.
Proof.
  intros Ho Hot Hd E. apply bind_ok in E. destruct E as (as_ & Ea & E). apply bind_ok in E. destruct E as (a & Es & E). injection E as <-.
  apply seq_map in Ea. pose proof (F2_len _ _ _ Ea) as Hl. cbn [length] in Hl.
  assert (Hall : Forall (fun a => leaf_ok s (Some a)) as_).
  { assert (H0 : Forall (conforms (Leaf s)) (Leaf o :: others)) by (constructor; [now apply conf_leaf'|assumption]).
    clear - Ea H0. revert H0. induction Ea as [|t c ts cs Hh Ht IH]; intros H0; [constructor|]. inversion H0 as [|? ? H1 H2]; subst. constructor; [|auto].
    apply conf_leaf in H1. destruct H1 as (o1 & -> & H1). cbn in Hh. destruct o1; [|discriminate]. now injection Hh as <-. }
  unfold np_stack in Es. destruct (all_shape _ _); [|discriminate]. injection Es as <-. unfold stacked. cbn [leaf_ok batched a_dtype a_shape s_dtype s_shape].
  destruct as_ as [|a0 as_]; [discriminate|]. inversion Hall as [|? ? [Hd0 Hs0] Hr]; subst. split.
  - apply np_same; [easy|]. cbn [map]. constructor; [easy|]. clear - Hr. induction Hr as [|? ? [H _]]; cbn; constructor; auto.
  - constructor; [|exact Hs0]. rewrite Hl. exact Hd.
Qed.

Lemma make_batch_conf sp dim xs y : Forall (conforms sp) xs -> dim_matches dim (Z.of_nat (length xs)) ->
  make_batch_of np xs = Ok y -> conforms (tmap (batched dim) sp) y.
Proof.
  intros Hx Hd E. destruct xs as [|x [|x2 xs]]; cbn [make_batch_of] in E; [discriminate| |].
  - inversion Hx; subst. unfold map_leaves in E. eapply map_structure_conf with (n := 0%nat) (others := []); [|eassumption|reflexivity|constructor|exact E].
    intros s o others o' Ho _ _ Eo. cbn beta in Eo. destruct o as [a|]; [|discriminate]. injection Eo as <-.
    destruct Ho as [H1' H2']. split; [exact H1'|]. cbn. constructor; [exact Hd|exact H2'].
  - inversion Hx; subst. eapply map_structure_conf with (n := S (length xs)) (others := x2 :: xs); [|eassumption|reflexivity|eassumption|exact E].
    intros s o others o' Ho Hn Hot Eo. eapply stack_conf; eauto. rewrite Hn. exact Hd.
Qed.

Lemma batch_spec_eq sp n drop (b : batch_fn D V) sp' : batch_spec sp n drop b = Ok sp' ->
  match b with
  | WithOutputSpec _ os => os sp n drop = Ok sp'
  | CustomFn _ => False
  | _ => sp' = tmap (batched (if drop then Some n else None)) sp
  end.
Proof.
  destruct b; cbn [batch_spec]; intros E; try discriminate; auto.
  - rewrite (map_leaves_tmap (batched (if drop then Some n else None))) in E. now injection E as <-.
  - rewrite (map_leaves_tmap (batched (if drop then Some n else None))) in E. now injection E as <-.
Qed.

Lemma batch_call_conf sp sp' n drop b vs y : batch_described b n drop -> batch_spec sp n drop b = Ok sp' ->
  Forall (present (conforms sp)) vs -> vs <> [] -> Z.of_nat (length vs) <= n -> (drop = true -> Z.of_nat (length vs) = n) ->
  batch_values_of np b vs = Ok y -> conforms sp' y.
Proof.
  intros Hb Es Hv Hne Hle Hd E. apply bind_ok in E. destruct E as (xs & Ex & E). apply seq_map in Ex.
  pose proof (F2_len _ _ _ Ex) as Hl.
  assert (Hx : Forall (conforms sp) xs).
  { clear - Ex Hv. revert Hv. induction Ex as [|o x os xs Ho Hos IH]; intros Hv; [constructor|]. inversion Hv; subst. constructor; [|auto].
    destruct o; [|discriminate]. injection Ho as ->. now apply H1. }
  assert (Hdim : dim_matches (if drop then Some n else None) (Z.of_nat (length xs))).
  { rewrite Hl. destruct drop; cbn; [now apply Hd|easy]. }
  apply batch_spec_eq in Es. destruct b; cbn [batch_call] in E.
  - subst. eapply make_batch_conf; eauto.
  - subst. eapply make_batch_conf; eauto.
  - cbn in Hb. eapply Hb; eauto; try (rewrite Hl; assumption). intros ->. destruct vs; [easy|discriminate].
  - easy.
Qed.
End Conf.

(** ** MapDatasets *)

Section Mapds.
Context {A : Type} (P : A -> Prop).

Lemma pymod_ok a b c : pymod a b = Ok c -> b <> 0.
Proof. unfold pymod, pydivmod. destruct (Z.eqb_spec b 0); [discriminate|auto]. Qed.

Lemma default_everywhere (get : Z -> res (option A)) is l : (forall i x, get i = Ok (Some x) -> P x) ->
  default_getitems get is = Ok l -> length l = length is /\ forall x, In (Some x) l -> P x.
Proof.
  intros H E. apply seq_map in E. split; [now apply F2_len in E|]. intros x Hx.
  destruct (F2_in_r _ _ _ _ E Hx) as (i & _ & Ei). eauto.
Qed.
Lemma reindexed_everywhere (f : Z -> res Z) (p : MapDs A) : everywhere p P ->
  (forall i x, (let! j := f i in mget p j) = Ok (Some x) -> P x) /\
  (forall is l, reindexed_getitems f p is = Ok l -> length l = length is /\ forall x, In (Some x) l -> P x).
Proof.
  intros [H1 H2]. split.
  - intros i x E. apply bind_ok in E. destruct E as (j & _ & E). eauto.
  - intros is l E. apply bind_ok in E. destruct E as (js & Ej & E). apply seq_map in Ej. apply F2_len in Ej.
    destruct (H2 _ _ E). split; [congruence|assumption].
Qed.
Lemma mapped_everywhere {B} (Q : B -> Prop) (p : MapDs B) (f : Z -> option B -> res (option A)) :
  everywhere p Q -> (forall i e x, present Q e -> f i e = Ok (Some x) -> P x) ->
  (forall i x, (let! e := mget p i in f i e) = Ok (Some x) -> P x) /\
  (forall is l, (let! es := mgetitems p is in sequence (map (fun ie => f (fst ie) (snd ie)) (combine is es))) = Ok l ->
     length l = length is /\ forall x, In (Some x) l -> P x).
Proof.
  intros [H1 H2] Hf. split.
  - intros i x E. apply bind_ok in E. destruct E as (e & Ee & E). eapply Hf; [|exact E]. intros y ->. eauto.
  - intros is l E. apply bind_ok in E. destruct E as (es & Ee & E). destruct (H2 _ _ Ee) as [Hl Hes]. apply seq_map in E. split.
    + apply F2_len in E. rewrite E, combine_length. lia.
    + intros x Hx. destruct (F2_in_r _ _ _ _ E Hx) as ([i e] & Hin & Ei). cbn in Ei. eapply Hf; [|exact Ei].
      intros y ->. apply Hes. eapply in_combine_r; eauto.
Qed.
Lemma combine_map_r {X Y} (l : list X) (l' : list Y) (g : Y -> res (option A)) : length l' = length l ->
  map (fun ie => g (snd ie)) (combine l l') = map g l'.
Proof. revert l'. induction l; intros [|y l']; cbn; intros H; try easy. f_equal. apply IHl. lia. Qed.
Lemma combine_swap {X Y Z0} (l : list X) (l' : list Y) (g : X -> Y -> Z0) :
  map (fun ie => g (snd ie) (fst ie)) (combine l' l) = map (fun ie => g (fst ie) (snd ie)) (combine l l').
Proof. revert l'. induction l; intros [|y l']; cbn; try easy. f_equal. apply IHl. Qed.

Lemma pyindex_in {X} (l : list X) i x : pyindex l i = Ok x -> In x l.
Proof.
  unfold pyindex. destruct (i <? 0); [discriminate|]. destruct (nth_error l (Z.to_nat i)) eqn:E; [|discriminate].
  intros H. injection H as <-. eapply nth_error_In; eauto.
Qed.
Lemma update_nth_len {X} n (a : X) l : length (update_nth n a l) = length l.
Proof. revert n. induction l; intros [|n]; cbn; auto. Qed.
Lemma update_nth_in {X} n (a : X) l x : In x (update_nth n a l) -> x = a \/ In x l.
Proof. revert n. induction l as [|y l IH]; intros [|n]; cbn; auto; intros [->|H]; auto. destruct (IH _ H); auto. Qed.

Lemma mixed_everywhere (ps : list (MapDs A)) (sel : SelectionMap) : (forall p, In p ps -> everywhere p P) -> everywhere (mixed_ds ps sel) P.
Proof.
  intros Hp. split; cbn [mixed_ds mget mgetitems].
  - intros i x E. apply bind_ok in E. destruct E as (dk & _ & E). apply bind_ok in E. destruct E as (p & Ep & E).
    apply pyindex_in in Ep. destruct (Hp p Ep) as [H _]. eauto.
  - intros is l E. unfold mixed_getitems in E. apply bind_ok in E. destruct E as (pairs & Ep & E).
    match type of E with fold_left ?F ?gs _ = _ => set (G := gs) in *; set (f := F) in * end. clearbody G.
    assert (K : forall G acc, f = f -> (forall m, acc = Ok m -> length m = length is /\ forall x, In (Some x) m -> P x) ->
      fold_left f G acc = Ok l -> length l = length is /\ forall x, In (Some x) l -> P x).
    { clear E G. induction G as [|g G IH]; intros acc _ Hacc E; cbn [fold_left] in E; [auto|]. eapply IH; [reflexivity| |exact E].
      intros m Em. unfold f in Em. apply bind_ok in Em. destruct Em as (m0 & -> & Em). destruct (Hacc m0 eq_refl) as [L0 H0].
      apply bind_ok in Em. destruct Em as (p & Epi & Em). apply bind_ok in Em. destruct Em as (els & Ee & Em). injection Em as <-.
      apply pyindex_in in Epi. destruct (Hp p Epi) as [_ H2]. destruct (H2 _ _ Ee) as [_ He].
      clear Ee Hacc. generalize (map snd (snd g)). intros ks. clear - L0 H0 He. revert m0 els L0 H0 He.
      induction ks as [|k ks IH]; intros m0 els L0 H0 He; [easy|]. destruct els as [|e els]; [easy|]. cbn [combine fold_left fst snd].
      apply IH.
      - now rewrite update_nth_len.
      - intros x Hx. apply update_nth_in in Hx. destruct Hx as [Hx|Hx]; [apply He; now left|auto].
      - intros x Hx. apply He. now right. }
    eapply K; [reflexivity| |exact E]. intros m Em. injection Em as <-. split; [now rewrite repeat_length|].
    intros x Hx. apply repeat_spec in Hx. discriminate.
Qed.
End Mapds.

(** ** MapDataset pipelines *)

Section MpipeInd.
Context {D V : Type} (P : mpipe D V -> Prop).
Hypothesis Huser : forall ds sp, P (MUser ds sp).
Hypothesis Hsource : forall n src b, P (MSource n src b).
Hypothesis Hrange : forall a b c, P (MRange a b c).
Hypothesis Hmap : forall f os p, P p -> P (MMap f os p).
Hypothesis Hmapi : forall f os p, P p -> P (MMapWithIndex f os p).
Hypothesis Hmapr : forall f rng os p, P p -> P (MRandomMap f rng os p).
Hypothesis Hfilter : forall f p, P p -> P (MFilter f p).
Hypothesis Hshuffle : forall s p, P p -> P (MShuffle s p).
Hypothesis Hws : forall w s p, P p -> P (MWindowShuffle w s p).
Hypothesis Hslice : forall a b c p, P p -> P (MSlice a b c p).
Hypothesis Hreindex : forall is p, P p -> P (MReindex is p).
Hypothesis Hrepeat : forall n r p, P p -> P (MRepeat n r p).
Hypothesis Hbatch : forall pd n d b p, P p -> P (MBatch pd n d b p).
Hypothesis Hmix : forall ps w, Forall P ps -> P (MMix ps w).
Hypothesis Hconcat : forall ps, Forall P ps -> P (MConcatenate ps).
Hypothesis Hzip : forall ps, Forall P ps -> P (MZip ps).
Hypothesis Hflat : forall m f p, P p -> P (MFlatMap m f p).
Fixpoint mpipe_induct (p : mpipe D V) : P p :=
  let go := fix go (l : list (mpipe D V)) : Forall P l := match l with [] => Forall_nil _ | x :: l => Forall_cons _ (mpipe_induct x) (go l) end in
  match p with
  | MUser ds sp => Huser ds sp
  | MSource n src b => Hsource n src b
  | MRange a b c => Hrange a b c
  | MMap f os p => Hmap f os p (mpipe_induct p)
  | MMapWithIndex f os p => Hmapi f os p (mpipe_induct p)
  | MRandomMap f rng os p => Hmapr f rng os p (mpipe_induct p)
  | MFilter f p => Hfilter f p (mpipe_induct p)
  | MShuffle s p => Hshuffle s p (mpipe_induct p)
  | MWindowShuffle w s p => Hws w s p (mpipe_induct p)
  | MSlice a b c p => Hslice a b c p (mpipe_induct p)
  | MReindex is p => Hreindex is p (mpipe_induct p)
  | MRepeat n r p => Hrepeat n r p (mpipe_induct p)
  | MBatch pd n d b p => Hbatch pd n d b p (mpipe_induct p)
  | MMix ps w => Hmix ps w (go ps)
  | MConcatenate ps => Hconcat ps (go ps)
  | MZip ps => Hzip ps (go ps)
  | MFlatMap m f p => Hflat m f p (mpipe_induct p)
  end.
End MpipeInd.

Lemma transpose_rows {A} n (ls : list (list A)) r : Forall (fun l => (n <= length l)%nat) ls -> In r (transpose n ls) ->
  Forall2 (fun l e => In e l) ls r.
Proof.
  revert ls. induction n as [|n IH]; intros ls Hl Hr; [easy|]. cbn [transpose] in Hr. destruct Hr as [<-|Hr].
  - clear IH. induction Hl as [|l ls Hl Hls IH]; [constructor|]. destruct l; [cbn in Hl; lia|]. cbn. constructor; [now left|exact IH].
  - apply IH in Hr.
    + clear - Hr. remember (map _ ls) as ls' eqn:E. revert ls E. induction Hr as [|l' e ls' r H Hr IH]; intros [|l ls] E; try discriminate; constructor.
      * injection E as -> _. destruct l; [easy|]. now right.
      * injection E as _ E. auto.
    + clear - Hl. induction Hl as [|l ls Hl Hls IH]; cbn; constructor; [|exact IH]. destruct l; cbn in *; lia.
Qed.
Lemma transpose_len {A} n (ls : list (list A)) : length (transpose n ls) = n.
Proof. revert ls. induction n; intros ls; cbn; auto. Qed.
Lemma min_length_all {A} n (ls : list (list A)) : ls <> [] -> Forall (fun l => length l = n) ls -> min_length ls = n.
Proof.
  destruct ls as [|l ls]; [easy|]. intros _ H. inversion H; subst. cbn. clear - H3. remember (length l) as n eqn:E. clear E.
  induction H3 as [|l' ls Hl Hls IH]; [reflexivity|]. cbn. rewrite Hl, Nat.min_id. exact IH.
Qed.

Section Pipes.
Context {D V : Type}.
Variable np : numpy D V.
Variable int64 : D.
Variable of_int : Z -> V.
Variable gen_keys : Z -> Z -> list Z.
Hypothesis np_same : forall d ds, ds <> [] -> Forall (eq d) ds -> np_result np ds = d.
Notation mden := (mden np int64 of_int gen_keys).
Notation mspec := (@mspec D V int64).
Notation mright := (mright np int64 of_int gen_keys).

Definition mgood (p : mpipe D V) : Prop :=
  forall sp ds, mspec p = Ok sp -> mright p -> mden p = Ok ds -> everywhere ds (conforms sp).

Lemma transform_ok (os : option (spec D -> res (spec D))) r sp : transform_spec os r = Ok sp ->
  exists o sp0, os = Some o /\ r = Ok sp0 /\ o sp0 = Ok sp.
Proof. destruct os as [o|]; cbn; [|discriminate]. intros H. apply bind_ok in H. destruct H as (s & H1 & H2). eauto 6. Qed.

Lemma present_map (Q P : elem D V -> Prop) (f : elem D V -> res (option (elem D V))) e x :
  (forall y z, Q y -> f y = Ok (Some z) -> P z) -> present Q e -> map_element f e = Ok (Some x) -> P x.
Proof. intros Hf He E. destruct e as [y|]; cbn in E; [|discriminate]. eapply Hf; eauto. Qed.
Lemma present_filter (Q : elem D V -> Prop) (f : elem D V -> res bool) e x :
  present Q e -> filter_element f e = Ok (Some x) -> Q x.
Proof. intros He E. destruct e as [y|]; cbn in E; [|discriminate]. apply bind_ok in E. destruct E as (b & _ & E). destruct b; [|discriminate]. injection E as <-. now apply He. Qed.

Lemma everywhere_len {A} (p : MapDs A) P is es : everywhere p P -> mgetitems p is = Ok es -> length es = length is.
Proof. intros [_ H] E. now apply H in E. Qed.

Lemma getitems_combine {A B} (p : MapDs A) P (g : option A -> res (option B)) is l : everywhere p P ->
  (let! es := mgetitems p is in sequence (map g es)) = Ok l ->
  (let! es := mgetitems p is in sequence (map (fun ie => g (snd ie)) (combine is es))) = Ok l.
Proof.
  intros Hp E. apply bind_ok in E. destruct E as (es & Ee & E). rewrite Ee. cbn [bind]. rewrite combine_map_r; [exact E|].
  eapply everywhere_len; eauto.
Qed.

Lemma dens_all (ps : list (mpipe D V)) dss sp : Forall mgood ps ->
  (fix go l := match l with [] => True | p :: l => mright p /\ go l end) ps ->
  (forall p q, In p ps -> In q ps -> mspec p = mspec q) ->
  sequence (map mden ps) = Ok dss -> first_spec (map mspec ps) = Ok sp -> forall d, In d dss -> everywhere d (conforms sp).
Proof.
  intros IH Hr Heq Ed Es d Hd. apply seq_map in Ed. destruct (F2_in_r _ _ _ _ Ed Hd) as (p & Hp & Ep).
  rewrite Forall_forall in IH. apply (IH p Hp sp d); [| |exact Ep].
  - destruct ps as [|p0 ps]; [easy|]. cbn in Es. rewrite <- Es. apply Heq; [assumption|now left].
  - clear - Hr Hp. induction ps as [|q ps IHp]; [easy|]. destruct Hr as [Hq Hr]. destruct Hp as [->|Hp]; auto.
Qed.

Lemma tuple_conf sps (es : list (option (elem D V))) : Forall2 (fun sp e => e <> None /\ present (conforms sp) e) sps es ->
  conforms (Seq tuple_tag sps) (tuple_of es).
Proof.
  intros H. constructor. induction H as [|sp e sps es [Hn Hp] Hr IH]; cbn; constructor; [|exact IH].
  destruct e; [now apply Hp|easy].
Qed.

Lemma batch_map_good pd n drop b (ds ds' : MapDs (elem D V)) sp sp' : everywhere ds (conforms sp) -> 0 <= mlen ds -> batch_described b n drop ->
  batch_spec sp n drop b = Ok sp' -> batch_ds pd n drop (batch_values_of np b) ds = Ok ds' -> everywhere ds' (conforms sp').
Proof.
  intros Hds Hlen Hb Es E. unfold batch_ds in E. destruct (Z.leb_spec n 0) as [|Hn]; [discriminate|]. injection E as <-.
  match goal with |- everywhere {| mlen := _; mget := ?g; mgetitems := _ |} _ =>
    assert (Hg : forall i x, g i = Ok (Some x) -> conforms sp' x) end.
  { intros i x E. apply bind_ok in E. destruct E as ([ep ix] & Eq & E). apply bind_ok in E. destruct E as (vs & Ev & E).
    apply bind_ok in E. destruct E as (y & Ey & E). injection E as <-.
    unfold pydivmod in Eq. destruct (Z.eqb_spec (batch_len (mlen ds) n drop) 0) as [|Hnz]; [discriminate|]. injection Eq as <- <-.
    set (L := batch_len (mlen ds) n drop) in *.
    match type of Ev with context [zrange ?a ?k] => set (items := zrange a k) in *; assert (Hi : length items = k) by apply zrange_length end.
    assert (Hv : length vs = length items /\ Forall (present (conforms sp)) vs).
    { destruct pd.
      - destruct Hds as [_ H2]. destruct (H2 _ _ Ev) as [H H']. split; [exact H|]. apply Forall_forall. intros e He z ->. auto.
      - apply seq_map in Ev. split; [now apply F2_len in Ev|]. apply Forall_forall. intros e He z ->.
        destruct (F2_in_r _ _ _ _ Ev He) as (j & _ & Ej). destruct Hds as [H1 _]. eauto. }
    destruct Hv as [Hl Hv]. rewrite Hi in Hl.
    assert (HL : 0 < L /\ if drop then L * n <= mlen ds else (L - 1) * n < mlen ds).
    { subst L. unfold batch_len in *. destruct drop.
      - pose proof (Z.div_pos (mlen ds) n). pose proof (Z.mul_div_le (mlen ds) n). lia.
      - assert (0 <= (mlen ds + n - 1) / n) by (apply Z.div_pos; lia). pose proof (Z.mul_div_le (mlen ds + n - 1) n). lia. }
    destruct HL as [HL Hm]. assert (Hix : 0 <= i mod L < L) by (apply Z.mod_pos_bound; lia).
    set (ix := i mod L) in *. clearbody ix L. set (ep := i / L) in *. clearbody ep.
    assert (Hk : 0 < Z.of_nat (length vs) <= n /\ (drop = true -> Z.of_nat (length vs) = n)).
    { rewrite Hl. clear - Hn Hix Hm HL. destruct drop.
      - assert ((ix + 1) * n <= L * n) by nia. rewrite Z.min_r by lia. split; [|intros _]; lia.
      - assert (ix * n <= (L - 1) * n) by nia. split; [|discriminate]. lia. }
    destruct Hk as [Hk1 Hk2].
    eapply (batch_call_conf np np_same sp sp' n drop b vs); try eassumption; [|lia].
    intros ->. cbn in Hk1. lia. }
  split; [exact Hg|]. intros is l E. eapply default_everywhere; eauto.
Qed.

Lemma zip_good (ps : list (mpipe D V)) : Forall mgood ps -> mgood (MZip ps).
Proof.
  intros IH sp ds Es [Hr Hn] Ed. cbn [ElementSpec.mspec] in Es. cbn [ElementSpec.mden] in Ed.
  apply bind_ok in Es. destruct Es as (sps & Es & E). injection E as <-.
  apply bind_ok in Ed. destruct Ed as (dss & Ed & E). apply bind_ok in E. destruct E as (z & Ez & E). injection E as <-.
  apply seq_map in Es. apply seq_map in Ed.
  assert (H : Forall2 (fun s d => everywhere d (conforms s) /\ (forall i, mget d i <> Ok None) /\ (forall is l, mgetitems d is = Ok l -> ~ In None l)) sps dss).
  { clear Ez z. revert sps dss IH Hr Hn Es Ed. induction ps as [|p ps IHp]; intros sps dss IH Hr Hn Es Ed; inversion Es; inversion Ed; subst; constructor.
    - destruct Hr as [Hr _]. inversion IH; subst. split; [auto|]. apply (Hn p); [now left|assumption].
    - inversion IH; subst. destruct Hr as [_ Hr]. apply IHp; auto. intros q d Hq. apply Hn. now right. }
  clear Es Ed IH Hr Hn. unfold zip_ds in Ez. destruct dss as [|d0 dss]; [discriminate|]. destruct (forallb _ _); [|discriminate]. injection Ez as <-.
  split; cbn [mget mgetitems retype_ds].
  - intros i x E. apply bind_ok in E. destruct E as (e & E & E'). apply bind_ok in E. destruct E as (es & E & E2). injection E2 as <-. injection E' as <-.
    change (sequence (map (fun p => mget p i) (d0 :: dss)) = Ok es) in E.
    apply tuple_conf. apply seq_map in E. clear - H E. remember (d0 :: dss) as L eqn:EL. clear d0 dss EL. revert es E. induction H as [|s d sps dss (Hd & Hn & _) Hr IH]; intros es E; inversion E; subst; constructor; [|auto].
    split; [intros ->; eapply Hn; eassumption|]. intros w ->. destruct Hd as [Hd _]. eauto.
  - intros is l E. apply bind_ok in E. destruct E as (e & E & E'). apply bind_ok in E. destruct E as (ess & E & E2). injection E2 as <-. injection E' as <-.
    change (sequence (map (fun p => mgetitems p is) (d0 :: dss)) = Ok ess) in E.
    apply seq_map in E.
    assert (Hall : Forall2 (fun s es => length es = length is /\ forall e, In e es -> e <> None /\ present (conforms s) e) sps ess).
    { clear - H E. remember (d0 :: dss) as L eqn:EL. clear d0 dss EL. revert ess E. induction H as [|s d sps dss (Hd & _ & Hn) Hr IH]; intros es E; inversion E as [|? ? ? ? Ed]; subst; constructor; [|auto].
      destruct Hd as [_ Hd]. destruct (Hd _ _ Ed) as [Hl Hd']. split; [exact Hl|]. intros e He. split; [intros ->; eapply Hn; eassumption|]. intros z ->. auto. }
    assert (Hlen : Forall (fun es => length es = length is) ess) by (clear - Hall; induction Hall as [|? ? ? ? []]; constructor; auto).
    assert (Hne : ess <> []) by (intros ->; inversion E).
    unfold pyzip. rewrite (min_length_all (length is) ess Hne Hlen). rewrite map_map. split; [rewrite map_length; apply transpose_len|].
    intros x Hx. apply in_map_iff in Hx. destruct Hx as (r & Er & Hx). cbn in Er. injection Er as <-.
    apply tuple_conf. apply transpose_rows in Hx; [|clear - Hlen; induction Hlen; constructor; auto; lia].
    clear - Hall Hx. revert r Hx. induction Hall as [|s es sps ess [_ H] Hr IH]; intros r Hx; inversion Hx; subst; constructor; auto.
Qed.

Lemma mpipe_good p : mgood p.
Proof.
  induction p using mpipe_induct; try (apply zip_good; assumption); intros spr ds' Es Hr Ed; cbn [ElementSpec.mspec] in Es; cbn [ElementSpec.mden] in Ed; cbn [ElementConforms.mright] in Hr; try discriminate.
  - injection Ed as <-. auto.
  - injection Es as <-. apply bind_ok in Ed. destruct Ed as (r & Er & E). injection E as <-.
    unfold range_ds in Er. destruct (c =? 0); [discriminate|]. injection Er as <-.
    assert (H : forall i x, (let! e := (let! r := pymod i (range_len match b with Some _ => a | None => 0 end match b with Some s => s | None => a end c) in
       Ok (Some (match b with Some _ => a | None => 0 end + r * c))) in Ok (option_map (int_elem int64 of_int) e)) = Ok (Some x) -> conforms (Leaf (mkSds [] int64)) x).
    { intros i x E. apply bind_ok in E. destruct E as (e & E & E'). apply bind_ok in E. destruct E as (z & _ & E). injection E as <-. injection E' as <-.
      unfold int_elem. constructor; [reflexivity|constructor]. }
    split; [exact H|]. cbn [mgetitems retype_ds]. intros is l E. apply bind_ok in E. destruct E as (es & E & E'). injection E' as <-.
    apply seq_map in E. split; [rewrite map_length; now apply F2_len in E|]. intros x Hx. apply in_map_iff in Hx. destruct Hx as (e & Ee & He).
    destruct (F2_in_r _ _ _ _ E He) as (i & _ & Ei). apply (H i). rewrite Ei. cbn [bind]. now rewrite Ee.
  - destruct Hr as [Ho Hr]. apply transform_ok in Es. destruct Es as (o & sp0 & -> & Es & Eo). apply bind_ok in Ed. destruct Ed as (d & Ed & E). injection E as <-.
    specialize (IHp _ _ Es Hr Ed).
    destruct (mapped_everywhere (conforms spr) (conforms sp0) d (fun _ => map_element f) IHp) as [H1 H2].
    { intros _ e x He E. eapply present_map; [|exact He|exact E]. intros y z Hy Hz. eapply Ho; [reflexivity|exact Eo|exact Hy|cbv beta in *; eauto]. }
    split; [exact H1|]. intros is l E. apply H2. apply (getitems_combine _ _ (map_element f) is l IHp E).
  - destruct Hr as [Ho Hr]. apply transform_ok in Es. destruct Es as (o & sp0 & -> & Es & Eo). apply bind_ok in Ed. destruct Ed as (d & Ed & E). injection E as <-.
    specialize (IHp _ _ Es Hr Ed).
    apply (mapped_everywhere (conforms spr) (conforms sp0) d (fun i => map_element (f i)) IHp).
    intros i e x He E. eapply present_map; [|exact He|exact E]. intros y z Hy Hz. eapply Ho; [reflexivity|exact Eo|exact Hy|cbv beta in *; eauto].
  - destruct Hr as [Ho Hr]. apply transform_ok in Es. destruct Es as (o & sp0 & -> & Es & Eo). apply bind_ok in Ed. destruct Ed as (d & Ed & E). injection E as <-.
    specialize (IHp _ _ Es Hr Ed).
    destruct (mapped_everywhere (conforms spr) (conforms sp0) d (fun i => map_element (fun x => f x (rng i))) IHp) as [H1 H2].
    { intros i e x He E. eapply present_map; [|exact He|exact E]. intros y z Hy Hz. eapply Ho; [reflexivity|exact Eo|exact Hy|cbv beta in *; eauto]. }
    split; [exact H1|]. intros is l E. apply H2. cbn [random_map_ds mgetitems] in E. apply bind_ok in E. destruct E as (es & Ee & E). rewrite Ee. cbn [bind].
    rewrite <- E. f_equal. symmetry. exact (combine_swap is es (fun i e => map_element (fun x => f x (rng i)) e)).
  - apply bind_ok in Ed. destruct Ed as (d & Ed & E). injection E as <-. specialize (IHp _ _ Es Hr Ed).
    destruct (mapped_everywhere (conforms spr) (conforms spr) d (fun _ => filter_element f) IHp) as [H1 H2].
    { intros i e x He E. eapply present_filter; [exact He|exact E]. }
    split; [exact H1|]. intros is l E. apply H2. apply (getitems_combine _ _ (filter_element f) is l IHp E).
  - apply bind_ok in Ed. destruct Ed as (d & Ed & E). specialize (IHp _ _ Es Hr Ed).
    unfold shuffle_ds in E. destruct (_ || _); [discriminate|]. injection E as <-. apply reindexed_everywhere. exact IHp.
  - apply bind_ok in Ed. destruct Ed as (d & Ed & E). specialize (IHp _ _ Es Hr Ed).
    injection E as <-. apply reindexed_everywhere. exact IHp.
  - apply bind_ok in Ed. destruct Ed as (d & Ed & E). specialize (IHp _ _ Es Hr Ed).
    unfold slice_ds in E. apply bind_ok in E. destruct E as ([[? ?] ?] & _ & E). injection E as <-. apply reindexed_everywhere. exact IHp.
  - apply bind_ok in Ed. destruct Ed as (d & Ed & E). specialize (IHp _ _ Es Hr Ed).
    injection E as <-. apply reindexed_everywhere. exact IHp.
  - apply bind_ok in Ed. destruct Ed as (d & Ed & E). specialize (IHp _ _ Es Hr Ed).
    unfold repeat_ds in E. destruct (match n with Some _ => _ | None => _ end); [discriminate|]. destruct (_ >=? _); [discriminate|].
    injection E as <-. apply reindexed_everywhere. exact IHp.
  - apply bind_ok in Ed. destruct Ed as (d0 & Ed & E). apply bind_ok in Es. destruct Es as (sp0 & Es & Eb). destruct Hr as (Hb & Hr & Hlen).
    eapply batch_map_good; eauto.
  - destruct Hr as [Hr Heq]. apply bind_ok in Ed. destruct Ed as (dss & Ed & E). unfold mix_ds in E. apply bind_ok in E. destruct E as (sel & _ & E). injection E as <-.
    apply mixed_everywhere. eapply dens_all; eauto.
  - destruct Hr as [Hr Heq]. apply bind_ok in Ed. destruct Ed as (dss & Ed & E). unfold concatenate_ds in E. apply bind_ok in E. destruct E as (sel & _ & E). injection E as <-.
    apply mixed_everywhere. eapply dens_all; eauto.
Qed.
End Pipes.
