(** What concat-then-split is supposed to do, for C43-C45. *)
From Verif Require Import Base ListFacts MapDatasets Iter Packing ConcatSplit.

Section Spec.
Context {A : Type}.
Variable cfg : config A.
Notation fs := (cs_feats cfg).

(** An element: the values of its features (a scalar counts as an array of one value).
    A piece of an element: the number of the element in the stream, and the values of each
    feature that are in the piece. *)
Definition values_of (e : list (value A)) : list (list A) := map vlist e.
Definition piece : Type := nat * list (list A).
Definition part (i : nat) (q : piece) : list A := nth i (snd q) [].
(** The number of values of feature [i] in a row. *)
Definition used (i : nat) (row : list piece) : nat := list_sum (map (fun q => length (part i q)) row).

Definition is_data (i : nat) : Prop := exists f, nth_error fs i = Some f /\ cf_meta f = false.
Definition is_meta (i : nat) : Prop := exists f, nth_error fs i = Some f /\ cf_meta f = true.
Definition limit (i : nat) : nat := match nth_error fs i with Some f => cf_len f | None => 0%nat end.

(** What is emitted for a row with the given pieces: the values of the pieces one after the
    other, then zeros; segment ids 1, 2, ... for the pieces; positions from 0 in each piece. *)
Definition with_bos (f : cfeat) (q : list A) : list A :=
  match (if cf_bos f then cs_bos cfg else None), q with Some b, _ :: q' => b :: q' | _, _ => q end.
Fixpoint segment_ids (k : Z) (col : list (list A)) : list Z :=
  match col with [] => [] | q :: col' => List.repeat k (length q) ++ segment_ids (k + 1) col' end.
Definition pad {X} (n : nat) (x : X) (l : list X) : list X := l ++ List.repeat x (n - length l).
Definition show_feature (i : nat) (f : cfeat) (row : list piece) : list A * option (list Z * list Z) :=
  let col := map (part i) row in
  (pad (cf_len f) (cs_zero cfg) (concat (map (with_bos f) col)),
   if cf_meta f then None
   else Some (pad (cf_len f) 0 (segment_ids 1 col), pad (cf_len f) 0 (concat (map (fun q => zrange 0 (length q)) col)))).
Fixpoint show_features (i : nat) (fs : list cfeat) (row : list piece) : cts_row A :=
  match fs with [] => [] | f :: fs' => show_feature i f row :: show_features (S i) fs' row end.
Definition show_row (row : list piece) : cts_row A := show_features 0 fs row.

(** An element that fills a row by itself: a feature has the length of a row and no feature is
    longer. *)
Definition full_element (e : list (list A)) : Prop :=
  (forall i, (i < length fs)%nat -> (length (nth i e []) <= limit i)%nat) /\
  exists i, (i < length fs)%nat /\ length (nth i e []) = limit i.

(** [rows]: the elements of [l] with the numbers selected by [sel], concatenated and split. *)
Record concatenated_and_split (l : list (list (list A))) (sel : nat -> Prop) (rows : list (list piece)) : Prop := {
  (* the pieces are in the order of the elements, and an element has one piece in a row *)
  cs_order : forall i j q r, (i < j)%nat -> nth_error (concat rows) i = Some q -> nth_error (concat rows) j = Some r -> (fst q <= fst r)%nat;
  cs_once : forall row, In row rows -> NoDup (map fst row);
  (* the pieces are of the selected elements, and no selected element is missing *)
  cs_from : forall q, In q (concat rows) -> sel (fst q) /\ (fst q < length l)%nat /\ length (snd q) = length fs;
  cs_all : forall k, sel k -> (k < length l)%nat -> exists q, In q (concat rows) /\ fst q = k;
  (* the pieces of an element are its data in order; each of them has all meta features *)
  cs_data : forall k e i, sel k -> nth_error l k = Some e -> is_data i ->
    concat (map (part i) (filter (fun q => Nat.eqb (fst q) k) (concat rows))) = nth i e [];
  cs_meta : forall q e i, In q (concat rows) -> nth_error l (fst q) = Some e -> is_meta i -> part i q = nth i e [];
  (* no row is empty or overflows *)
  cs_nonempty : forall row, In row rows -> row <> [];
  cs_room : forall row i, In row rows -> (i < length fs)%nat -> (used i row <= limit i)%nat;
  (* a row ends because nothing of what comes next has place in it: a meta feature has no
     place, or every data feature is full or has no more values, and one is full and has *)
  cs_full : forall k row q row', nth_error rows k = Some row -> nth_error rows (S k) = Some (q :: row') ->
    (exists i, is_meta i /\ (limit i < used i row + length (part i q))%nat) \/
    ((forall i, is_data i -> used i row = limit i \/ part i q = []) /\
     exists i, is_data i /\ used i row = limit i /\ part i q <> []);
}.

(** [merge xs ys zs]: [zs] has the elements of [xs] and of [ys], each in order. *)
Inductive merge {X} : list X -> list X -> list X -> Prop :=
| merge_nil : merge [] [] []
| merge_left x xs ys zs : merge xs ys zs -> merge (x :: xs) ys (x :: zs)
| merge_right y xs ys zs : merge xs ys zs -> merge xs (y :: ys) (y :: zs).

(** Everything that is emitted: with split_full_length_features=False the full elements are
    rows of their own and the others are concatenated and split. *)
Definition passed (l : list (list (list A))) (k : nat) : Prop :=
  cs_split_full cfg = false /\ exists e, nth_error l k = Some e /\ full_element e.
Definition cts_output (l : list (list (list A))) (out : list (cts_row A)) : Prop :=
  exists rows full all,
    concatenated_and_split l (fun k => ~ passed l k) rows /\
    (forall k, In k full <-> passed l k) /\ (forall i j a b, (i < j)%nat -> nth_error full i = Some a -> nth_error full j = Some b -> (a < b)%nat) /\
    merge rows (map (fun k => [(k, nth k l [])]) full) all /\
    out = map show_row all.

(** What has been emitted when [l] has been read and more may follow: all rows but the one that is being
    made and the full elements read since it was begun. *)
Definition cts_emitted (l : list (list (list A))) (out : list (cts_row A)) : Prop :=
  exists missing, cts_output l (out ++ missing) /\
    forall r, In r (tl missing) -> exists k e, passed l k /\ nth_error l k = Some e /\ r = show_row [(k, e)].

(** The configurations and elements the claim is about: every feature has a length of at least
    1 and every element a value for each feature; meta features fit in a row; and either there is
    one data feature, or no feature of the element is longer than a row and the data features
    are not scalars (see C44 for what happens otherwise). With BOS tokens: one data feature, which
    has values in every element. *)
Definition one_data_feature : Prop := length (filter (fun f => negb (cf_meta f)) fs) = 1%nat.
Definition good_config : Prop := Forall (fun f => (1 <= cf_len f)%nat /\ (cf_meta f && cf_bos f) = false) fs.
Definition good_element (e : list (value A)) : Prop :=
  length e = length fs /\
  (forall i, is_meta i -> (length (nth i (values_of e) []) <= limit i)%nat) /\
  (one_data_feature \/
   forall i, is_data i -> (length (nth i (values_of e) []) <= limit i)%nat /\ exists l, nth_error e i = Some (Array l)) /\
  (cs_bos cfg = None \/ (one_data_feature /\ forall i, is_data i -> nth i (values_of e) [] <> [])).
End Spec.

(** Arguments with which ConcatThenSplitIterDataset can be constructed. *)
Definition dataset_of {A} (cfg : config A) (p : Iter (list (value A))) : res (Iter (cts_row A)) :=
  concat_split_dataset (cs_feats cfg) (cs_split_full cfg) (match cs_bos cfg with Some _ => true | None => false end) (cs_bos cfg) (cs_zero cfg) p.
Definition accepted {A} (cfg : config A) : Prop := cs_feats cfg <> [] /\ (cs_bos cfg = None -> existsb cf_bos (cs_feats cfg) = false).
