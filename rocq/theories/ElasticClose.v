(** Model of close of the elastic iterators over MapDatasets, grain/_src/python/dataset/elastic_iterator.py:317-355, 436-498. *)
From Verif Require Import Base MapDatasets Iter IterSpec Elastic Close.

(** _ElasticMapDatasetIterator without mp_prefetch: as [elastic_map_it] (Elastic.v) with the inner iterator of Close.v.  close
    (lines 353-355) closes the inner iterator if there is one; set_state (347-351) closes and forgets it. *)
Definition elastic_map_cl {A} (pushdown : bool) (b i k num_threads buffer_size : Z) (ds : MapDs A) : Closable (option (list (option A))) :=
  let inner d := prefetch_cl None false num_threads buffer_size d in
  {| cl_it :=
       {| ist := Z * option {d : MapDs (list (option A)) & ist (cl_it (inner d))};
          ick := Z;
          init := (0, None);
          next := fun fuel '(g, it) =>
            match (match it with
                   | Some it => Ok it
                   | None => let! d := elastic_inner pushdown b i k ds g in Ok (existT _ d (init (cl_it (inner d))))
                   end) with
            | Ok (existT _ d s) =>
                match next (cl_it (inner d)) fuel s with
                | (Yield e, s') => (Yield e, (g + b, Some (existT _ d s')))
                | (o, s') => (o, (g, Some (existT _ d s')))
                end
            | Raise e => (Fail e, (g, None))
            | OutOfFuel => (NoFuel, (g, None))
            end;
          get_state := fun '(g, _) => g;
          set_state := fun _ _ c => Ok (c, None);
          jsonck := fun c => c |};
     cl_close := fun '(g, it) => (g, match it with Some (existT _ d s) => Some (existT _ d (cl_close (inner d) s)) | None => None end);
     cl_running := fun '(_, it) => match it with Some (existT _ d s) => cl_running (inner d) s | None => 0%nat end |}.

(** ElasticIterator, lines 436-498: base_iterator is made when it is first used (a cached property; get_state makes one that
    has read nothing, whose state is that at the start).  set_state closes it and sets the state of a new one.  close
    (lines 478-481) looks for "_base_iterator" in __dict__, where the cached property is "base_iterator": it finds nothing. *)
Definition elastic_cl {A} (base : Closable A) : Closable A :=
  {| cl_it :=
       {| ist := option (ist (cl_it base)); ick := ick (cl_it base); init := None;
          next := fun fuel s =>
            let (o, s') := next (cl_it base) fuel (match s with Some s => s | None => init (cl_it base) end) in (o, Some s');
          get_state := fun s => get_state (cl_it base) (match s with Some s => s | None => init (cl_it base) end);
          set_state := fun fuel _ c => let! s' := set_state (cl_it base) fuel (init (cl_it base)) c in Ok (Some s');
          jsonck := jsonck (cl_it base) |};
     cl_close := fun s => s;
     cl_running := fun s => match s with Some s => cl_running base s | None => 0%nat end |}.
