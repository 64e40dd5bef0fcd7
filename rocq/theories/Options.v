(** Model of DatasetOptions (grain/_src/python/dataset/base.py:253-363), of the context
    shared by the iterators of a pipeline (base.py:374-402, dataset.py:1420-1442,
    1689-1743), and of default seeds (dataset.py:91-116, 1640-1684). *)
From Verif Require Import Base.

(** The fields of DatasetOptions and their values (a float is a fraction). *)
Inductive field : Type := FilterWarn | FilterRaise | ExecutionTracking | MinShmSize.
Inductive value : Type := VNone | VRatio (num den : Z) | VInt (z : Z) | VMode (m : nat).

(** The class defaults, base.py:298-303. *)
Definition default_value (f : field) : value :=
  match f with FilterWarn => VRatio 9 10 | FilterRaise => VNone | ExecutionTracking => VMode 0 | MinShmSize => VInt 0 end.

(** An instance: the attributes and _user_set_fields. *)
Record options := mkOptions { values : field -> value; user_set : field -> bool }.

(** DatasetOptions( ** args) with __post_init__, base.py:311-319: [args f] is the keyword
    argument, if given. *)
Definition make_options (args : field -> option value) : options :=
  {| values := fun f => match args f with Some v => v | None => default_value f end;
     user_set := fun f => match args f with Some _ => true | None => false end |}.

(** merge, base.py:353-363. *)
Definition merge (self : options) (other : option options) : options :=
  match other with
  | None => self
  | Some other =>
      make_options (fun f =>
        if user_set self f then Some (values self f)
        else if user_set other f then Some (values other f)
        else None)
  end.

(** ** The context shared by the iterators of a pipeline *)

(** A pipeline of iterators: a transformation with parents (a source has none) or
    WithOptionsIterDataset. *)
Inductive opipe : Type :=
| OOp (parents : list opipe)
| OWith (o : options) (parent : opipe).

(** An iterator object: a reference to its context and its parents. *)
Inductive onode : Type := ONode (ctx : nat) (parents : list onode).
Definition node_ctx (n : onode) : nat := match n with ONode c _ => c end.
Definition node_parents (n : onode) : list onode := match n with ONode _ ps => ps end.
(** The contexts created so far ([dataset_options] of each; mp_context is the default
    one everywhere and is_dataloader_pipeline is not modelled). *)
Definition heap := list options.
Definition hget (h : heap) (c : nat) : options := nth c h (make_options (fun _ => None)).
Fixpoint hset (h : heap) (c : nat) (o : options) : heap :=
  match h, c with
  | [], _ => []
  | _ :: h', O => o :: h'
  | x :: h', S c' => x :: hset h' c' o
  end.

(** dataset.py:1435-1439: [while to_visit: current = to_visit.pop(); current._ctx =
    self._ctx; to_visit.extend(current._parents)] reaches every node of the tree. *)
Fixpoint set_ctx (c : nat) (n : onode) : onode :=
  match n with ONode _ ps => ONode c (map (set_ctx c) ps) end.

(** DatasetIterator.__init__, dataset.py:1420-1442, and WithOptionsIterDataset.__iter__,
    dataset.py:1724-1736. *)
Fixpoint build (p : opipe) (h : heap) : onode * heap :=
  match p with
  | OOp parents =>
      let (nodes, h) :=
        (fix go (ps : list opipe) (h : heap) : list onode * heap :=
           match ps with
           | [] => ([], h)
           | p :: ps' => let (n, h1) := build p h in let (ns, h2) := go ps' h1 in (n :: ns, h2)
           end) parents h in
      match nodes with
      | [] => (ONode (length h) [], h ++ [make_options (fun _ => None)])
      | first :: others =>
          let c := node_ctx first in
          let h := fold_left (fun h n => hset h c (merge (hget h c) (Some (hget h (node_ctx n))))) others h in
          (ONode c (first :: map (set_ctx c) others), h)
      end
  | OWith o parent =>
      let (n, h) := build parent h in
      (n, hset h (node_ctx n) (merge o (Some (hget h (node_ctx n)))))
  end.

(** ** Default seeds *)

(** A dataset: _seed_rng_seed (set by ds.seed(...)) and the parents. *)
Inductive dnode : Type := DNode (seed : option Z) (parents : list dnode).

(** The traversal of _default_seed, dataset.py:102-112.  [aggregated] in order. *)
Fixpoint aggregate (fuel : nat) (to_visit : list (dnode * Z)) (aggregated : list (Z * Z)) : res (list (Z * Z)) :=
  match fuel, to_visit with
  | _, [] => Ok aggregated
  | O, _ => OutOfFuel
  | S fuel', (DNode (Some s) _, depth) :: rest => aggregate fuel' rest (aggregated ++ [(s, depth)])
  | S fuel', (DNode None parents, depth) :: rest =>
      aggregate fuel' (rest ++ map (fun n => (n, depth + 1)) parents) aggregated
  end.
(** _default_seed, dataset.py:99-116.  [mix] is SeedSequence(...).generate_state(1)[0]. *)
Definition default_seed (mix : list (Z * Z) -> Z) (fuel : nat) (d : dnode) : res (option Z) :=
  let! aggregated := aggregate fuel [(d, 0)] [] in
  Ok (match aggregated with [] => None | _ => Some (mix aggregated) end).
(** The seed of a shuffle or random_map (shuffle.py:43-50, map.py:196-199, 446-449):
    [seed = self._default_seed if seed is None else seed], ValueError if both are None. *)
Definition seed_of (mix : list (Z * Z) -> Z) (fuel : nat) (d : dnode) (seed : option Z) : res Z :=
  match seed with
  | Some s => Ok s
  | None => let! s := default_seed mix fuel d in match s with Some s => Ok s | None => Raise ValueError end
  end.
