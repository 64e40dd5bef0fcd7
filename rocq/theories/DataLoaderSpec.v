(** What a DataLoader gives, without iterators: the specification for C39. *)
From Verif Require Import Base Spec IterSpec MapDatasets Samplers DataLoader.

(** What an operation makes of a list of records.  [rec_gen] of a record is the state of its generator. *)
Definition load1 {G A} (op : loader_op G A) (l : list (lrec G A)) : res (list (lrec G A)) :=
  match op with
  | LMap f => sequence (map (fun r => let! d := f (rec_data r) in Ok (mkRec (rec_md r) (rec_gen r) d)) l)
  | LRandomMap f => sequence (map (fun r => let! dg := f (rec_data r) (rec_gen r) in Ok (mkRec (rec_md r) (snd dg) (fst dg))) l)
  | LFilter f =>
      let! keep := sequence (map (fun r => f (rec_data r)) l) in
      Ok (map fst (filter snd (combine l keep)))
  | LBatch n drop fn =>
      if n <=? 0 then Raise ValueError
      else sequence (map (fun group =>
             let! d := fn (map rec_data group) in
             match rev group with
             | [] => Raise IndexError
             | r :: _ => Ok (mkRec (mkMd (md_index (rec_md r)) None (md_rng (rec_md r))) (rec_gen r) d)
             end) ((if drop then full_chunks else chunks) (Z.to_nat n) l))
  end.
Fixpoint load {G A} (ops : list (loader_op G A)) (l : list (lrec G A)) : res (list (lrec G A)) :=
  match ops with [] => Ok l | op :: ops' => let! l' := load1 op l in load ops' l' end.

(** The records of one shard: the sampler's answer at the indices of the shard, and the data under the record key. *)
Definition records {G A} (philox : Z -> G) (source : MapDs A) (s : sampler) (o : Sharding.shard_options) (l : list (lrec G A)) : Prop :=
  Forall2 (fun k r => smp_get s (k * Sharding.shard_count o + Sharding.shard_index o) = Ok (rec_md r) /\
                      rec_gen r = option_map philox (md_rng (rec_md r)) /\
                      exists key, md_record_key (rec_md r) = Some key /\ mget source key = Ok (rec_data r))
    (zrange 0 (Z.to_nat (sampler_length (smp_len s) o))) l.

(** Operations that treat the records one by one and keep them all. *)
Definition one_by_one {G A} (op : loader_op G A) : bool :=
  match op with LMap _ => true | LRandomMap _ => true | LFilter _ => false | LBatch _ _ _ => false end.

(** The history of an iterator of a data loader: next, get_state, set_state (always through JSON), a new iterator. *)
Fixpoint loader_run {A} (d : loader A) (fuel : nat) (ops : list op) (s : ld_st d) (cks : list loader_state) : list (obs A) :=
  match ops with
  | [] => []
  | ONext :: ops' => let (o, s') := ld_next d fuel s in Got o :: loader_run d fuel ops' s' cks
  | OSave :: ops' =>
      match ld_get d s with
      | Ok (c, s') => Saved :: loader_run d fuel ops' s' (cks ++ [c])
      | _ => LoadFailed :: loader_run d fuel ops' s cks
      end
  | OLoad k _ :: ops' =>
      match nth_error cks k with
      | None => NoSuchCheckpoint :: loader_run d fuel ops' s cks
      | Some c =>
          match ld_set d fuel s c with
          | Ok s' => Loaded :: loader_run d fuel ops' s' cks
          | _ => LoadFailed :: loader_run d fuel ops' s cks
          end
      end
  | ORestart :: ops' => Restarted :: loader_run d fuel ops' (ld_init d) cks
  end.
