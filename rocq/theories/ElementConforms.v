(** What it means that an element spec is right, independently of how it is computed. *)
From Verif Require Import Base MapDatasets Tree SharedMemory Iter Interleave ElementSpec.

(** A dimension of an array and the dimension of a spec: None stands for any size. *)
Definition dim_matches (expected : option Z) (actual : Z) : Prop :=
  match expected with None => True | Some n => actual = n end.

(** An element has the structure of the spec (the same containers, the same keys in the same order) and at each leaf an array
    of the same element type, of the same rank and of the sizes the spec gives. *)
Inductive conforms {D V} : spec D -> elem D V -> Prop :=
| conforms_leaf s a : a_dtype a = s_dtype s -> Forall2 dim_matches (s_shape s) (a_shape a) ->
    conforms (Leaf s) (Leaf (Some a))
| conforms_seq tag sps xs : Forall2 conforms sps xs -> conforms (Seq tag sps) (Seq tag xs)
| conforms_dict tag sps xs : NoDup (map fst sps) -> map fst sps = map fst xs -> Forall2 conforms (map snd sps) (map snd xs) ->
    conforms (Dict tag sps) (Dict tag xs).

(** The states an iterator can reach, and the checkpoints that can be made: calls of next in any number, checkpoints of any
    state reached, through JSON or not, restored into any state reached. *)
Inductive reach {A} (it : Iter A) : ist it -> Prop :=
| reach_init : reach it (init it)
| reach_next fuel s o s' : reach it s -> next it fuel s = (o, s') -> reach it s'
| reach_set fuel s c s' : reach it s -> reach_ck it c -> set_state it fuel s c = Ok s' -> reach it s'
with reach_ck {A} (it : Iter A) : ick it -> Prop :=
| reach_get s : reach it s -> reach_ck it (get_state it s)
| reach_json c : reach_ck it c -> reach_ck it (jsonck it c).

(** Every element the iterator ever yields satisfies [P]. *)
Definition always {A} (it : Iter A) (P : A -> Prop) : Prop :=
  forall fuel s a s', reach it s -> next it fuel s = (Yield a, s') -> P a.
(** Every element of a MapDataset satisfies [P], read alone or with others; batched reads give one result per index. *)
Definition everywhere {A} (ds : MapDs A) (P : A -> Prop) : Prop :=
  (forall i x, mget ds i = Ok (Some x) -> P x) /\
  (forall is l, mgetitems ds is = Ok l -> length l = length is /\ forall x, In (Some x) l -> P x).

(** Elements that are not None (allow_nones and filtered elements). *)
Definition present {A} (P : A -> Prop) (o : option A) : Prop := forall x, o = Some x -> P x.

(** An output_spec is right about a transform. *)
Definition describes {D V} (output_spec : option (spec D -> res (spec D))) (f : elem D V -> elem D V -> Prop) : Prop :=
  forall os sp sp' x y, output_spec = Some os -> os sp = Ok sp' -> conforms sp x -> f x y -> conforms sp' y.
Definition batch_described {D V} (b : batch_fn D V) (batch_size : Z) (drop : bool) : Prop :=
  match b with
  | WithOutputSpec f os =>
      forall sp sp' xs y, os sp batch_size drop = Ok sp' -> Forall (conforms sp) xs -> xs <> [] ->
        Z.of_nat (length xs) <= batch_size -> (drop = true -> Z.of_nat (length xs) = batch_size) ->
        f xs = Ok y -> conforms sp' y
  | _ => True
  end.

(** All leaves of an element have [n] rows. *)
Definition has_rows {D V} (n : Z) (x : elem D V) : Prop :=
  forall a, In (Some a) (flatten x) -> hd 0 (a_shape a) = n.

Section Right.
Context {D V : Type}.
Variable np : numpy D V.
Variable int64 : D.
Variable of_int : Z -> V.
Variable gen_keys : Z -> Z -> list Z.

(** What the user has to get right in a pipeline: output_spec methods and specs of their own datasets describe what is
    produced; mixed and concatenated datasets have one spec; zipped datasets have no None elements.  (And
    len() is not negative, which Python guarantees.) *)
Fixpoint mright (p : mpipe D V) : Prop :=
  match p with
  | MUser ds sp => forall s, sp = Ok s -> everywhere ds (conforms s)
  | MSource _ _ _ | MFlatMap _ _ _ => True
  | MRange _ _ _ => True
  | MMap f os p => describes os (fun x y => f x = Ok (Some y)) /\ mright p
  | MMapWithIndex f os p => describes os (fun x y => exists i, f i x = Ok (Some y)) /\ mright p
  | MRandomMap f rng os p => describes os (fun x y => exists g, f x g = Ok (Some y)) /\ mright p
  | MFilter _ p | MShuffle _ p | MWindowShuffle _ _ p | MSlice _ _ _ p | MReindex _ p | MRepeat _ _ p => mright p
  | MBatch _ n drop b p =>
      batch_described b n drop /\ mright p /\ forall ds, mden np int64 of_int gen_keys p = Ok ds -> 0 <= mlen ds
  | MMix ps _ | MConcatenate ps =>
      (fix go l := match l with [] => True | p :: l => mright p /\ go l end) ps /\
      forall p q, In p ps -> In q ps -> mspec int64 p = mspec int64 q
  | MZip ps =>
      (fix go l := match l with [] => True | p :: l => mright p /\ go l end) ps /\
      forall p ds, In p ps -> mden np int64 of_int gen_keys p = Ok ds ->
        (forall i, mget ds i <> Ok None) /\ (forall is l, mgetitems ds is = Ok l -> ~ In None l)
  end.
(** The same for iterators.  Rebatching must drop the remainder and be given elements that all have the same number of
    rows, in all their leaves. *)
Fixpoint iright (p : ipipe D V) : Prop :=
  match p with
  | IUser it sp => forall s, sp = Ok s -> always it (present (conforms s))
  | IPrefetch _ _ _ _ p => mright p
  | IMap f os p => describes os (fun x y => f x = Ok (Some y)) /\ iright p
  | IMapWithIndex f os p => describes os (fun x y => exists i, f i x = Ok (Some y)) /\ iright p
  | IRandomMap f rng pi pc os p => describes os (fun x y => exists g, f x g = Ok (Some y)) /\ iright p
  | IFilter _ _ p | ILimit _ p | IRepeat _ p | IWindowShuffle _ _ p | ICache p => iright p
  | IBatch n drop b p => batch_described b n drop /\ iright p
  | IRebatch n drop p =>
      drop = true /\ iright p /\
      forall it, iden np int64 of_int gen_keys p = Ok it -> exists rows, always it (present (has_rows rows))
  | IMix _ ps | IInterleave ps _ _ _ =>
      (fix go l := match l with [] => True | p :: l => iright p /\ go l end) ps /\
      forall p q, In p ps -> In q ps -> ispec int64 p = ispec int64 q
  | IZip _ ps =>
      (fix go l := match l with [] => True | p :: l => iright p /\ go l end) ps /\
      forall p it, In p ps -> iden np int64 of_int gen_keys p = Ok it -> always it (fun o => o <> None)
  | IFlatMap _ _ => True
  end.
End Right.
