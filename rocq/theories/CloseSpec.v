(** What close is to do. *)
From Verif Require Import Base MapDatasets Iter IterSpec ThreadPrefetch ProcessPrefetch Scheduled Close.

(** What a user does with an iterator: next, get_state, set_state of the [k]-th checkpoint, close. *)
Inductive use : Type := UNext | USave | ULoad (k : nat) (json : bool) | UClose.
(** The outcome of every next, with whether close had been called before, and the iterator at the end. *)
Fixpoint use_it {A} (c : Closable A) (fuel : nat) (us : list use) (s : ist (cl_it c)) (cks : list (ick (cl_it c))) (closed : bool)
  : list (bool * out A) * ist (cl_it c) :=
  match us with
  | [] => ([], s)
  | UNext :: us =>
      let (o, s') := next (cl_it c) fuel s in
      let (l, e) := use_it c fuel us s' cks closed in ((closed, o) :: l, e)
  | USave :: us => use_it c fuel us s (cks ++ [get_state (cl_it c) s]) closed
  | ULoad k json :: us =>
      match nth_error cks k with
      | None => use_it c fuel us s cks closed
      | Some ck =>
          match set_state (cl_it c) fuel s (if json then jsonck (cl_it c) ck else ck) with
          | Ok s' => use_it c fuel us s' cks closed
          | _ => use_it c fuel us s cks closed
          end
      end
  | UClose :: us => use_it c fuel us (cl_close c s) cks true
  end.
Definition results {A} (c : Closable A) fuel us := fst (use_it c fuel us (init (cl_it c)) [] false).
Definition at_end {A} (c : Closable A) fuel us := snd (use_it c fuel us (init (cl_it c)) [] false).

(** How the iterator of a pipeline reacts to next after close: it raises ValueError; or it gives no element (but may raise
    StopIteration when it had stopped before); or it may still give elements. *)
Inductive reaction : Type := Raises | Silent | Goes_on.
Definition weaker (r : reaction) : reaction := match r with Goes_on => Goes_on | _ => Silent end.
Definition goes_on (r : reaction) : bool := match r with Goes_on => true | _ => false end.
Fixpoint reaction_of {A} (p : cpipe A) : reaction :=
  match p with
  | CSource _ _ _ _ _ => Raises
  | CUser _ => Goes_on
  | CMap _ p | CMapWithIndex _ p | CRandomMap _ _ _ _ p | CFilter _ _ p | CBatch _ _ _ p => reaction_of p
  | CLimit _ p | CRepeat _ p => weaker (reaction_of p)
  | CWindowShuffle _ _ _ | CCache _ | CFlatMap _ _ => Goes_on
  | CZip _ ps => match ps with [] => Goes_on | p :: _ => reaction_of p end
  | CMix _ ps => if existsb (fun p => goes_on (reaction_of p)) ps then Goes_on else Silent
  | CThread _ _ _ _ => Raises
  | CProcess _ _ _ _ => Silent
  end.
(** How often the search for an element has to look (the fuel of the model's loops). *)
Fixpoint loops {A} (p : cpipe A) : nat :=
  match p with
  | CFilter _ _ p => S (loops p)
  | CMap _ p | CMapWithIndex _ p | CRandomMap _ _ _ _ p | CBatch _ _ _ p => loops p
  | CZip _ ps => match ps with [] => 0 | p :: _ => loops p end
  | _ => 0
  end.
