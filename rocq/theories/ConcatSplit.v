(** Model of grain/_src/python/dataset/transformations/packing_concat_then_split.py:69-620.

    Features are numbered instead of named; only the first axis of an array is modelled. *)
From Verif Require Import Base MapDatasets Iter Packing.

(** A feature of an element: a scalar or an array. *)
Inductive value (A : Type) : Type := Scalar (a : A) | Array (l : list A).
Arguments Scalar {A}. Arguments Array {A}.
(** The values to copy into a row; their number is [1 if np.ndim(feature) == 0 else len(feature)]. *)
Definition vlist {A} (v : value A) : list A := match v with Scalar a => [a] | Array l => l end.

(** A slice: the tuple _EMPTY_SLICE (line 69), or another pair, which may be a list after JSON. *)
Inductive slice : Type := EmptySlice | Slice (start stop : Z).

(** What _CtsConfig (lines 83-92) says about a feature: its length in length_struct, whether it
    is in meta_features and in bos_features. *)
Record cfeat := mkCfeat { cf_len : nat; cf_meta : bool; cf_bos : bool }.
(** The configuration.  [cs_bos]: bos_token_id if bos_handling is
    REPLACE_FIRST_TOKEN_WITH_BOS; [cs_zero]: the zero of np.zeros. *)
Record config (A : Type) := mkConfig {
  cs_feats : list cfeat;
  cs_split_full : bool;
  cs_bos : option A;
  cs_zero : A;
}.
Arguments mkConfig {A}. Arguments cs_feats {A}. Arguments cs_split_full {A}. Arguments cs_bos {A}. Arguments cs_zero {A}.

(** feature[start:stop] of Python. *)
Definition clamp (n i : Z) : Z := if i <? 0 then Z.max 0 (n + i) else Z.min n i.
Definition pyslice {X} (start stop : Z) (l : list X) : list X :=
  let n := Z.of_nat (length l) in
  let a := clamp n start in
  let b := clamp n stop in
  firstn (Z.to_nat (b - a)) (skipn (Z.to_nat a) l).

(** _CtsElement, lines 135-190.  [el_slices] has None for the features that are not in the
    mapping (the meta features). *)
Record cts_element (A C : Type) := mkEl {
  el_state : C;
  el_feats : list (value A);
  el_slices : list (option slice);
}.
Arguments mkEl {A C}. Arguments el_state {A C}. Arguments el_feats {A C}. Arguments el_slices {A C}.

(** _CtsElement.get_sliced_features, lines 183-190. *)
Definition sliced {A} (v : value A) (s : option slice) : value A :=
  match v, s with
  | Array l, Some (Slice start stop) => Array (pyslice start stop l)
  | _, _ => v
  end.

(** _CtsElement.split, lines 153-181. [points]: None for the features without a split point. *)
Definition bounds {A} (v : value A) (s : option slice) : Z * Z :=
  match s with Some (Slice start stop) => (start, stop) | _ => (0, Z.of_nat (length (vlist v))) end.
Fixpoint split_slices {A} (vs : list (value A)) (ss : list (option slice)) (points : list (option Z))
  : list (option slice) * list (option slice) :=
  match vs, ss, points with
  | v :: vs', s :: ss', Some p :: points' =>
      let (ls, rs) := split_slices vs' ss' points' in
      let (start, stop) := bounds v s in
      (Some (Slice start p) :: ls, Some (Slice p stop) :: rs)
  | v :: vs', s :: ss', None :: points' =>
      let (ls, rs) := split_slices vs' ss' points' in (None :: ls, None :: rs)
  | _, _, _ => ([], [])
  end.
Definition split_element {A C} (e : cts_element A C) (points : list (option Z)) : option (cts_element A C) * cts_element A C :=
  if forallb (fun p => match p with Some x => x =? 0 | None => true end) points then (None, e)
  else
    let (ls, rs) := split_slices (el_feats e) (el_slices e) points in
    (Some (mkEl (el_state e) (el_feats e) ls), mkEl (el_state e) (el_feats e) rs).

(** A packed element: for each feature the values, and unless it is a meta feature the segment
    ids and positions. *)
Definition cts_row (A : Type) : Type := list (list A * option (list Z * list Z)).

Section ConcatSplit.
Context {A : Type}.
Variable cfg : config A.
Notation fs := (cs_feats cfg).

(** _empty_slices, lines 515-521. *)
Definition empty_slices : list (option slice) := map (fun f => if cf_meta f then None else Some EmptySlice) fs.

(** _can_optimize_as_full_length, lines 264-274. *)
Fixpoint full_length (fs : list cfeat) (vs : list (value A)) (ss : list (option slice)) (has : bool) : bool :=
  match fs, vs, ss with
  | f :: fs', v :: vs', s :: ss' =>
      let n := length (vlist (sliced v s)) in
      if Nat.ltb (cf_len f) n then false else full_length fs' vs' ss' (has || Nat.eqb n (cf_len f))
  | _, _, _ => has
  end.
Definition can_optimize {C} (e : cts_element A C) : bool := full_length fs (el_feats e) (el_slices e) false.

(** _pack_elements, lines 276-329: the inner loop, for one feature. [col]: the sequences of the
    elements; [values[start]] raises IndexError if start is the length. *)
Fixpoint pack_column (f : cfeat) (segment_id : Z) (start : nat) (col : list (list A))
    (values : list A) (segs poss : list Z) : res (list A * list Z * list Z) :=
  match col with
  | [] => Ok (values, segs, poss)
  | q :: col' =>
      let stop := (start + length q)%nat in
      if Nat.ltb (length values) stop then Raise InternalError
      else
        let! values := slice_assign start q values in
        let! values :=
          match (if cf_bos f then cs_bos cfg else None) with
          | Some b => if Nat.ltb start (length values) then Ok (update_nth start b values) else Raise IndexError
          | None => Ok values
          end in
        if cf_meta f then pack_column f (segment_id + 1) stop col' values segs poss
        else
          let! segs := slice_assign start (List.repeat segment_id (length q)) segs in
          let! poss := slice_assign start (zrange 0 (length q)) poss in
          pack_column f (segment_id + 1) stop col' values segs poss
  end.
Fixpoint pack_features (fs : list cfeat) (cols : list (list (list A))) : res (cts_row A) :=
  match fs, cols with
  | [], _ => Ok []
  | f :: fs', col :: cols' =>
      let n := cf_len f in
      let! r := pack_column f 1 0 col (List.repeat (cs_zero cfg) n) (List.repeat 0 n) (List.repeat 0 n) in
      let! rest := pack_features fs' cols' in
      let '(values, segs, poss) := r in
      Ok ((values, if cf_meta f then None else Some (segs, poss)) :: rest)
  | _ :: _, [] => Raise KeyError
  end.
Definition el_contents {C} (e : cts_element A C) : list (list A) :=
  map (fun vs => vlist (sliced (fst vs) (snd vs))) (combine (el_feats e) (el_slices e)).
(** The columns of some elements. *)
Definition columns (n : nat) (es : list (list (list A))) : list (list (list A)) :=
  map (fun i => map (fun e => nth i e []) es) (seq 0 n).
Definition pack_elements {C} (es : list (cts_element A C)) : res (cts_row A) :=
  match es with
  | [] => Raise InternalError
  | _ => pack_features fs (columns (length fs) (map el_contents es))
  end.

(** _maybe_add_to_buffer, lines 352-389: the new tokens and the split point of each feature, and
    needs_splitting; or None if a meta feature does not fit. *)
Fixpoint scan (fs : list cfeat) (vs : list (value A)) (ss : list (option slice)) (tokens : list nat)
  : res (option (list (nat * option Z) * bool)) :=
  match fs, vs, ss, tokens with
  | [], [], [], [] => Ok (Some ([], false))
  | f :: fs', v :: vs', s :: ss', t :: tokens' =>
      let n := length (vlist (sliced v s)) in
      if Nat.ltb (cf_len f) t then Raise AssertionError
      else
        let available := (cf_len f - t)%nat in
        if cf_meta f then
          if Nat.ltb available n then Ok None
          else
            let! r := scan fs' vs' ss' tokens' in
            Ok (option_map (fun ls : list (nat * option Z) * bool => ((n, None) :: fst ls, snd ls)) r)
        else
          let! r := scan fs' vs' ss' tokens' in
          if Nat.ltb available n then
            let start := match s with Some (Slice a _) => a | _ => 0 end in
            Ok (option_map (fun ls : list (nat * option Z) * bool =>
                              ((available, Some (start + Z.of_nat available)) :: fst ls, true)) r)
          else
            Ok (option_map (fun ls : list (nat * option Z) * bool =>
                              ((n, Some (Z.of_nat n)) :: fst ls, snd ls)) r)
  | _, _, _, _ => Raise KeyError
  end.
(** Lines 391-400.  The result is the remainder, the buffer and the tokens in it. *)
Definition maybe_add {C} (e : cts_element A C) (buffer : list (cts_element A C)) (tokens : list nat)
  : res (option (cts_element A C) * list (cts_element A C) * list nat) :=
  let! r := scan fs (el_feats e) (el_slices e) tokens in
  match r with
  | None => Ok (Some e, buffer, tokens)
  | Some (adds, needs) =>
      let tokens' := map (fun ta => (fst ta + fst (snd ta))%nat) (combine tokens adds) in
      if needs then
        let (left, right) := split_element e (map snd adds) in
        Ok (Some right, match left with Some x => buffer ++ [x] | None => buffer end, tokens')
      else Ok (None, buffer ++ [e], tokens')
  end.

(** ** The iterator *)

Section Iterator.
Variable p : Iter (list (value A)).

(** The attributes, lines 240-262.  [ct_state]: the fields of _CtsState (lines 193-210). *)
Record cts := mkCts {
  ct_parent : ist p;
  ct_packed : list (cts_row A);                                  (* _packed_elements *)
  ct_rem : option (cts_element A (ick p));                       (* _remainder_element *)
  ct_stop : bool;                                                (* _stop_iteration *)
  ct_state : ick p * list (option slice) * nat;
}.

(** _checkpoint, lines 495-513 (it is only called when nothing is packed). *)
Definition checkpoint (parent : ist p) (rem : option (cts_element A (ick p))) : ick p * list (option slice) * nat :=
  match rem with
  | None => (get_state p parent, empty_slices, 0%nat)
  | Some e => (el_state e, el_slices e, 0%nat)
  end.

(** The while loop, lines 423-468.  [inl]: an exception left the loop. *)
Fixpoint fill_loop (fuel0 fuel : nat) (s : cts) (buffer : list (cts_element A (ick p))) (tokens : list nat)
  : (out (cts_row A) * cts) + (cts * list (cts_element A (ick p))) :=
  match fuel with
  | O => inl (NoFuel, s)
  | S fuel' =>
      let read parent packed buffer tokens :=
        let st := get_state p parent in
        match next p fuel0 parent with
        | (Stop, ps) => inr (mkCts ps packed None true (ct_state s), buffer)
        | (Fail e, ps) => inl (Fail e, mkCts ps packed None (ct_stop s) (ct_state s))
        | (NoFuel, ps) => inl (NoFuel, mkCts ps packed None (ct_stop s) (ct_state s))
        | (Yield features, ps) =>
            if negb (Nat.eqb (length features) (length fs)) then
              inl (Fail ValueError, mkCts ps packed None (ct_stop s) (ct_state s))
            else
              let e := mkEl st features empty_slices in
              if negb (cs_split_full cfg) && can_optimize e then
                match pack_elements [e] with
                | Ok r => fill_loop fuel0 fuel' (mkCts ps (packed ++ [r]) None (ct_stop s) (ct_state s)) buffer tokens
                | Raise x => inl (Fail x, mkCts ps packed None (ct_stop s) (ct_state s))
                | OutOfFuel => inl (NoFuel, mkCts ps packed None (ct_stop s) (ct_state s))
                end
              else
                match maybe_add e buffer tokens with
                | Ok (None, buffer', tokens') =>
                    fill_loop fuel0 fuel' (mkCts ps packed None (ct_stop s) (ct_state s)) buffer' tokens'
                | Ok (Some r, buffer', _) => inr (mkCts ps packed (Some r) (ct_stop s) (ct_state s), buffer')
                | Raise x => inl (Fail x, mkCts ps packed None (ct_stop s) (ct_state s))
                | OutOfFuel => inl (NoFuel, mkCts ps packed None (ct_stop s) (ct_state s))
                end
        end in
      match ct_rem s with
      | None => read (ct_parent s) (ct_packed s) buffer tokens
      | Some e =>
          match maybe_add e buffer tokens with
          | Ok (None, buffer', tokens') => read (ct_parent s) (ct_packed s) buffer' tokens'
          | Ok (Some r, buffer', _) => inr (mkCts (ct_parent s) (ct_packed s) (Some r) (ct_stop s) (ct_state s), buffer')
          | Raise x => inl (Fail x, s)
          | OutOfFuel => inl (NoFuel, s)
          end
      end
  end.

(** Return the first packed element and count it, lines 405-407, 481-483. *)
Definition pop (s : cts) (otherwise : out (cts_row A) * cts) : out (cts_row A) * cts :=
  match ct_packed s with
  | r :: packed =>
      let '(c, slices, n) := ct_state s in
      (Yield r, mkCts (ct_parent s) packed (ct_rem s) (ct_stop s) (c, slices, S n))
  | [] => otherwise
  end.

(** __next__, lines 404-493. *)
Definition cts_next (fuel : nat) (s : cts) : out (cts_row A) * cts :=
  pop s (
    if ct_stop s then (Stop, s)
    else
      let s := mkCts (ct_parent s) (ct_packed s) (ct_rem s) (ct_stop s) (checkpoint (ct_parent s) (ct_rem s)) in
      match fill_loop fuel fuel s [] (map (fun _ => 0%nat) fs) with
      | inl r => r
      | inr (s, buffer) =>
          let with_packed s packed := mkCts (ct_parent s) packed (ct_rem s) (ct_stop s) (ct_state s) in
          match (match buffer with
                 | [] => Ok s
                 | _ => let! r := pack_elements buffer in Ok (with_packed s (r :: ct_packed s))
                 end) with
          | Raise x => (Fail x, s)
          | OutOfFuel => (NoFuel, s)
          | Ok s =>
              match (match ct_stop s, ct_rem s with
                     | true, Some e =>
                         let! r := pack_elements [e] in
                         Ok (mkCts (ct_parent s) (ct_packed s ++ [r]) None true (ct_state s))
                     | _, _ => Ok s
                     end) with
              | Raise x => (Fail x, s)
              | OutOfFuel => (NoFuel, s)
              | Ok s =>
                  pop s (
                    let s := mkCts (ct_parent s) (ct_packed s) (ct_rem s) (ct_stop s) (checkpoint (ct_parent s) (ct_rem s)) in
                    if ct_stop s then (Stop, s) else (Fail InternalError, s))
              end
          end
      end).

(** The calls of next at the end of set_state, lines 558-559. *)
Fixpoint advance (fuel n : nat) (s : cts) : res cts :=
  match n with
  | O => Ok s
  | S n' =>
      match cts_next fuel s with
      | (Yield _, s') => advance fuel n' s'
      | (Stop, _) => Raise InternalError                          (* StopIteration leaves set_state *)
      | (Fail e, _) => Raise e
      | (NoFuel, _) => OutOfFuel
      end
  end.

(** _CtsState.has_remainder, lines 212-218. *)
Definition has_remainder (slices : list (option slice)) : bool :=
  existsb (fun s => match s with Some (Slice _ _) => true | _ => false end) slices.

(** set_state, lines 526-559. *)
Definition cts_set_state (fuel : nat) (s : cts) (st : ick p * list (option slice) * nat) : res cts :=
  let '(c, slices, n) := st in
  let! ps := set_state p fuel (ct_parent s) c in
  let! s' :=
    if has_remainder slices then
      match next p fuel ps with
      | (Yield features, ps') =>
          let e := mkEl c features slices in
          Ok (mkCts ps' [] (Some e) false (checkpoint ps' (Some e)))
      | (Stop, _) => Raise ValueError
      | (Fail e, _) => Raise e
      | (NoFuel, _) => OutOfFuel
      end
    else Ok (mkCts ps [] None false (checkpoint ps None)) in
  advance fuel n s'.

(** JSON has no tuples: json.loads(json.dumps((-1, -1))) is the list [-1, -1], which is not
    equal to the tuple _EMPTY_SLICE. *)
Definition json_slice (s : slice) : slice := match s with EmptySlice => Slice (-1) (-1) | _ => s end.

(** _ConcatThenSplitDatasetIterator, lines 221-575. *)
Definition concat_split : Iter (cts_row A) :=
  {| ist := cts;
     ick := ick p * list (option slice) * nat;
     init := mkCts (init p) [] None false (checkpoint (init p) None);
     next := cts_next;
     get_state := ct_state;
     set_state := cts_set_state;
     jsonck := fun '(c, slices, n) => (jsonck p c, map (option_map json_slice) slices, n) |}.
End Iterator.
End ConcatSplit.
Arguments cts {A}. Arguments mkCts {A p}. Arguments ct_parent {A p}. Arguments ct_packed {A p}. Arguments ct_rem {A p}.
Arguments ct_stop {A p}. Arguments ct_state {A p}.

(** ConcatThenSplitIterDataset, lines 578-660, and the checks of _CtsConfig.__post_init__,
    lines 94-113. [replace]: bos_handling is REPLACE_FIRST_TOKEN_WITH_BOS. max() of no lengths
    raises ValueError (line 260). *)
Definition concat_split_dataset {A} (feats : list cfeat) (split_full replace : bool) (bos : option A) (zero : A)
    (p : Iter (list (value A))) : res (Iter (cts_row A)) :=
  if negb replace && (match bos with Some _ => true | None => false end || existsb cf_bos feats) then Raise ValueError
  else if replace && match bos with None => true | Some _ => false end then Raise ValueError
  else if existsb (fun f => cf_meta f && cf_bos f) feats then Raise ValueError
  else match feats with
       | [] => Raise ValueError
       | _ => Ok (concat_split (mkConfig feats split_full bos zero) p)
       end.
