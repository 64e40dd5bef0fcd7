(** What packing is supposed to do, for C40-C42. *)
From Coq Require Import Permutation Sorted.
From Verif Require Import Base ListFacts MapDatasets Iter Packing.

(** [sub s l]: [s] is [l] without some of its elements, in the same order. *)
Inductive sub {X} : list X -> list X -> Prop :=
| sub_nil : sub [] []
| sub_skip x s l : sub s l -> sub s (x :: l)
| sub_take x s l : sub s l -> sub (x :: s) (x :: l).

(** A feature: its capacity, alignment and padding value. *)
Record feature (A : Type) := mkFeature { capacity : nat; alignment : nat; padding : A }.
Arguments mkFeature {A}. Arguments capacity {A}. Arguments alignment {A}. Arguments padding {A}.

(** A cell of a packed row: value, segment id, position. *)
Definition cell (A : Type) : Type := A * Z * Z.
Definition blank {A} (x : A) : cell A := (x, 0, 0).

(** The cells of the [i]-th sequence of a row: its values with segment id i+1 and positions
    0, 1, ..., and blank cells up to the next multiple of the alignment. *)
Definition tokens {A} (i : nat) (t : list A) : list (cell A) :=
  combine (combine t (List.repeat (Z.of_nat i + 1) (length t))) (zrange 0 (length t)).
Definition up_to (align n : nat) : nat := ((n + align - 1) / align * align)%nat.
Definition segment {A} (f : feature A) (i : nat) (t : list A) : list (cell A) :=
  tokens i t ++ List.repeat (blank (padding f)) (up_to (alignment f) (length t) - length t).
Fixpoint segments {A} (f : feature A) (i : nat) (ts : list (list A)) : list (cell A) :=
  match ts with [] => [] | t :: ts' => segment f i t ++ segments f (S i) ts' end.
(** A row with the sequences [ts]: one after the other, then blank cells. *)
Definition layout {A} (f : feature A) (ts : list (list A)) : list (cell A) :=
  firstn (capacity f) (segments f 0 ts ++ List.repeat (blank (padding f)) (capacity f)).
(** The cells taken by [ts]. *)
Definition taken {A} (f : feature A) (ts : list (list A)) : nat :=
  list_sum (map (fun t => up_to (alignment f) (length t)) ts).

Section Spec.
Context {A M : Type}.
Variable fs : list (feature A).
Variable max_seq : option nat.

(** The values of feature [i] of the elements of a row. *)
Definition column (i : nat) (es : list (element A M)) : list (list A) := map (fun e => nth i (fst e) []) es.
(** What is emitted for a row with the elements [es]. *)
Fixpoint show_from (i : nat) (fs : list (feature A)) (es : list (element A M)) : list (list A * list Z * list Z) :=
  match fs with
  | [] => []
  | f :: fs' =>
      let cs := layout f (column i es) in
      (map (fun c => fst (fst c)) cs, map (fun c => snd (fst c)) cs, map snd cs) :: show_from (S i) fs' es
  end.
Definition show (es : list (element A M)) : packed_row A M := (show_from 0 fs es, map snd es).

(** An element with one value for each feature, none of them longer than a row. *)
Definition fits_alone (e : element A M) : Prop :=
  length (fst e) = length fs /\
  forall i f, nth_error fs i = Some f -> (length (nth i (fst e) []) <= capacity f)%nat.

(** The row [es] has room for [e]. *)
Definition has_room (es : list (element A M)) (e : element A M) : Prop :=
  forall i f, nth_error fs i = Some f -> (taken f (column i es) + length (nth i (fst e) []) <= capacity f)%nat.
Definition below_max (es : list (element A M)) : Prop := match max_seq with None => True | Some m => (length es < m)%nat end.
(** The cells taken in a row, over all features. *)
Fixpoint filled_from (i : nat) (fs : list (feature A)) (es : list (element A M)) : nat :=
  match fs with [] => 0%nat | f :: fs' => (taken f (column i es) + filled_from (S i) fs' es)%nat end.
Definition filled (es : list (element A M)) : nat := filled_from 0 fs es.

(** First fit: the first row that can take the element. *)
Definition first_fit_place (rows : list (list (element A M))) (e : element A M) (i : nat) : Prop :=
  (exists r, nth_error rows i = Some r /\ has_room r e /\ below_max r) /\
  forall j r, (j < i)%nat -> nth_error rows j = Some r -> ~ (has_room r e /\ below_max r).
(** Best fit: the fullest row that can take the element, and the first of those. The bound on
    the number of sequences does not apply to an element without any value in a row without
    any value. *)
Definition takes_nothing (r : list (element A M)) (e : element A M) : Prop :=
  filled r = 0%nat /\ forall i, (i < length fs)%nat -> nth i (fst e) [] = [].
Definition best_fit_can (r : list (element A M)) (e : element A M) : Prop := has_room r e /\ (below_max r \/ takes_nothing r e).
Definition best_fit_place (rows : list (list (element A M))) (e : element A M) (i : nat) : Prop :=
  exists r, nth_error rows i = Some r /\ best_fit_can r e /\
  forall j r', nth_error rows j = Some r' -> best_fit_can r' e -> (filled r' < filled r)%nat \/ (filled r' = filled r /\ (i <= j)%nat).

(** A batch: the elements are placed one after the other, until one has no place. *)
Section Batches.
Variable place : list (list (element A M)) -> element A M -> nat -> Prop.
Inductive fills : list (list (element A M)) -> list (element A M) -> list (list (element A M)) -> list (element A M) -> Prop :=
| fills_end rows : fills rows [] rows []
| fills_add rows e l i r rows' rest : place rows e i -> nth_error rows i = Some r ->
    fills (update_nth i (r ++ [e]) rows) l rows' rest -> fills rows (e :: l) rows' rest
| fills_full rows e l : (forall i, ~ place rows e i) -> fills rows (e :: l) rows (e :: l).
(** All batches of [bins] rows. *)
Inductive packs (bins : nat) : list (element A M) -> list (list (list (element A M))) -> Prop :=
| packs_nil : packs bins [] []
| packs_batch l b rest bs : l <> [] -> fills (List.repeat [] bins) l b rest -> packs bins rest bs -> packs bins l (b :: bs).
End Batches.

(** The rows of a batch that have elements. *)
Definition nonempty (b : list (list (element A M))) : list (list (element A M)) :=
  filter (fun r => match r with [] => false | _ => true end) b.
(** The rows emitted for the batches: [order first rows] is the order of the rows of a batch
    before which [first] rows were emitted. *)
Definition in_order {X} (o : list nat) (rows : list X) : list X :=
  flat_map (fun i => match nth_error rows i with Some r => [r] | None => [] end) o.
Fixpoint emission (order : nat -> list (packed_row A M) -> list nat) (first : nat) (bs : list (list (list (element A M)))) : list (packed_row A M) :=
  match bs with
  | [] => []
  | b :: bs' => let rows := map show (nonempty b) in
                in_order (order first rows) rows ++ emission order (first + length rows) bs'
  end.
End Spec.

(** A usable configuration. *)
Definition usable {A} (fs : list (feature A)) (bins : nat) (max_seq : option Z) (seed : Z) : Prop :=
  fs <> [] /\ (forall f, In f fs -> (0 < alignment f)%nat) /\ (1 <= bins)%nat /\
  match max_seq with Some m => 1 <= m | None => True end /\ 0 <= seed.
(** numpy: default_rng(s).permuted(range(n)) is a permutation. *)
Definition permutes (permuted : Z -> nat -> res (list nat)) : Prop :=
  forall s n, 0 <= s -> exists o, permuted s n = Ok o /\ Permutation o (seq 0 n).
(** Where the strategy puts an element. *)
Definition places {A M} (best : bool) (fs : list (feature A)) (max_seq : option Z) : list (list (element A M)) -> element A M -> nat -> Prop :=
  if best then best_fit_place fs (option_map Z.to_nat max_seq) else first_fit_place fs (option_map Z.to_nat max_seq).
Definition packing {A M} best (fs : list (feature A)) bins max_seq permuted seed shuffle_bins group (p : Iter (element A M)) :=
  pack_dataset best bins (map capacity fs) (map alignment fs) (map padding fs) max_seq permuted seed shuffle_bins group p.
(** The orders in which the rows of a batch may be emitted. *)
Definition row_order {A M} (shuffle_bins : bool) (group : option (packed_row A M -> Z)) (order : nat -> list (packed_row A M) -> list nat) : Prop :=
  forall first rows, Permutation (order first rows) (seq 0 (length rows)) /\
    (shuffle_bins = false -> order first rows = seq 0 (length rows)) /\
    (forall avg, shuffle_bins = true -> group = Some avg -> StronglySorted Z.le (map avg (in_order (order first rows) rows))).
