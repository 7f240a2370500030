(** Collections: id counter (db/idcounter.go) and the CRUD operations
    (db/collection*.go), plus opening a collection from disk. *)
From Verif Require Import GoBase FloatModel HeapModel ProgModel StateModel WalModel HnswModel StoreModel.
Open Scope nat_scope.

(** db/embeddings: Embed on the objects that need a vector yields one row per
    object.  [None] = the HTTP call or its decoding failed. *)
Definition embedder := list object -> option (list fvec).

(** Everything fixed when a collection is opened. *)
Record cparams := CParams {
  cp_h : hparams;                 (* db/collection.go:63-75 *)
  cp_mappings : list string;      (* c.config.Mappings *)
  cp_embed : option embedder;     (* c.embedder, nil when none *)
  cp_json : json;
  cp_maxval : N;                  (* bitcask's maximum value size *)
  cp_workers : nat;               (* c.wp.MaxWorkers() = runtime.NumCPU() *)
  cp_fuel : nat                   (* loop bound of the model, not of the code *)
}.

(** db/idcounter.go:17-39 newIdCounter: binary.Read of 8 bytes unless empty *)
Definition open_counter (f : bytes) : out N :=
  match f with
  | [] => Val 0%N
  | _ => match le_get 8 f with Some c => Val c | None => Err EUnexpectedEOF end
  end.

(** db/idcounter.go:41-63 fetchAndInc, atomic under the counter's mutex: the
    8 bytes are written at offset 0.  Fails on a closed file. *)
Definition fetch_and_inc : prog st N :=
  act (fun s =>
    let c := u64 (cnt s + 1) in
    if closed s then (set_cnt c (cfile s) s, Err EFileClosed)
    else (set_cnt c (le_put 8 c ++ drop 8 (cfile s)) s, Val (cnt s))).

Section coll.
  Context (C : cparams).
  Notation J := (cp_json C).

  (** collection.go:137-151 validateObjectsMappings: inner loop *)
  Fixpoint check_mappings (i : nat) (p : props) (ms : list string) : out unit :=
    match ms with
    | [] => Val tt
    | m :: ms' =>
        match p !! m with
        | None => Err (EMappingMissing i m)
        | Some _ => check_mappings i p ms'
        end
    end.
  Fixpoint validate_objects (i : nat) (os : list object) : out unit :=
    match os with
    | [] => Val tt
    | o :: os' =>
        if length (cp_mappings C) <? size (o_props o) then Err (EMappingLen i)
        else check_mappings i (o_props o) (cp_mappings C);; validate_objects (S i) os'
    end.

  (** collection.go:161-169: objects without a vector, in order *)
  Definition needs_vec (o : object) : bool := match o_vec o with None => true | Some _ => false end.
  (** text2vec-huggingface.go:114-116: objects[i].Vector = er[i] on the filtered
      pointers, seen from the whole list; er too short panics *)
  Fixpoint assign_vecs (os : list object) (er : list fvec) : out (list object) :=
    match os with
    | [] => Val []
    | o :: os' =>
        if needs_vec o then
          match er with
          | [] => Pan PIndex
          | v :: er' =>
              r ← assign_vecs os' er';
              Val (Object (o_id o) (o_props o) (Some v) :: r)
          end
        else r ← assign_vecs os' er; Val (o :: r)
    end.

  (** collection.go:153-177 embedObjectsIfNeeded; the embedder is called even
      when no object needs it *)
  Definition embed_objects (os : list object) : out (list object) :=
    match cp_embed C with
    | None => if existsb needs_vec os then Err EMissingVector else Val os
    | Some E =>
        match E (List.filter needs_vec os) with
        | None => Err EEmbed
        | Some er => assign_vecs os er
        end
    end.

  (** collection_insert.go:147-160 insert; the result is the caller's object,
      whose Id has been set *)
  Definition insert_one (tid : nat) (level : nat) (o : object) : prog st object :=
    id ← fetch_and_inc;
    put_object J (cp_maxval C) (Object id (o_props o) (o_vec o));;
    hnsw_insert (cp_h C) tid (cp_fuel C) level (vec_or_nil o) id;;
    mret (Object id (o_props o) (o_vec o)).

  (** hnsw.go:80-82 Flush -> wal.go:44-52 *)
  Definition flush (io : bool) : prog st unit := act (fun s => wal_flush io s).

  (** the guards at the head of Insert / InsertBatch / InsertBatch2 *)
  Definition check_open : prog st unit :=
    act (fun s => (s, if closed s then Err ECollectionClosed else Val tt)).

  (** collection_insert.go:9-34 Insert; the whole call holds c.mu.  The id and
      the embedding are reported through obj.Id and obj.Vector. *)
  Definition insert (tid : nat) (io : bool) (level : nat) (o : object) : prog st object :=
    check_open;;
    lift (validate_objects 0 [o]);;
    os ← lift (embed_objects [o]);
    match os with
    | [o'] => o'' ← insert_one tid level o'; flush io;; mret o''
    | _ => Done (Pan PIndex)
    end.

  (** collection_insert.go:65-83: the [i]-th of [w] chunks of a batch *)
  Definition chunk {A} (w i : nat) (l : list A) : list A :=
    let n := length l / w in
    let start := i * n in
    let stop := start + n + (if i =? w - 1 then length l mod w else 0) in
    take (stop - start) (drop start l).

  (** collection_insert.go:67-76: one worker of InsertBatch *)
  Fixpoint worker (tid : nat) (os : list (object * nat)) : prog st (list object) :=
    match os with
    | [] => mret []
    | (o, level) :: os' =>
        o' ← insert_one tid level o;
        done ← worker tid os';
        mret (o' :: done)
    end.

  (** collection_insert.go:119-133: one worker of InsertBatch2 receives from
      the shared channel until it is closed and drained; [n] bounds the loop by
      the batch size *)
  Fixpoint worker2 (n : nat) (tid : nat) : prog st (list object) :=
    x ← act (fun s =>
      match chan s with
      | [] => (s, Val None)
      | o :: os => (set_chan os s, Val (Some o))
      end);
    match x with
    | None => mret []
    | Some (o, level) =>
        o' ← insert_one tid level o;
        match n with
        | O => Done (Pan PFuel)
        | S n' => done ← worker2 n' tid; mret (o' :: done)
        end
    end.

  (** The goroutines of InsertBatch: pond runs the submitted functions on at
      most MaxWorkers goroutines, so any interleaving of all of them is an
      over-approximation (thread numbers start at 1). *)
  Definition batch_threads (os : list (object * nat)) : list (prog st (list object)) :=
    (fun i => worker (S i) (chunk (cp_workers C) i os)) <$> seq 0 (cp_workers C).
  Definition batch2_threads (os : list (object * nat)) : list (prog st (list object)) :=
    (fun i => worker2 (length os) (S i)) <$> seq 0 (cp_workers C).

  (** What InsertBatch does before starting the workers: collection_insert.go:
      39-52 and 97-114; [levels] are the random levels. *)
  Definition batch_prepare (s : st) (os : list object) : out (list object) :=
    if closed s then Err ECollectionClosed
    else validate_objects 0 os;; embed_objects os.

  (** pond.GroupContext Wait: nil when no worker returned an error, otherwise
      the error of one of them.  A panic inside a worker is recovered by the
      pool and reported nowhere; its task counts as finished. *)
  Definition group_wait {A} (rs : list (out A)) (r : out unit) : Prop :=
    match r with
    | Val _ => forall e, Err e ∉ rs
    | Err e => Err e ∈ rs
    | Pan _ => False
    end.

  (** collection_insert.go:54-90 and 116-142, the part of InsertBatch and
      InsertBatch2 after the preparation: the workers run in any interleaving
      until all have finished, then the log is flushed unless one failed.
      Simplification: the cancellation of not-yet-started tasks after an error
      (GroupContext) is not modelled. *)
  Inductive batch_run (io : bool) (ts : list (prog st (list object))) (s : st) :
      st -> out unit -> list (out (list object)) -> Prop :=
  | BatchOk s1 rs s2 r :
      rtc mstep (s, ts) (s1, Done <$> rs) ->
      group_wait rs (Val tt) -> wal_flush io s1 = (s2, r) ->
      batch_run io ts s s2 r rs
  | BatchErr s1 rs e :
      rtc mstep (s, ts) (s1, Done <$> rs) ->
      group_wait rs (Err e) ->
      batch_run io ts s s1 (Err e) rs.

  (** collection_delete.go:6-31 Delete: no check of c.closed; GetObject is
      called before c.mu is taken *)
  Definition delete_obj (io : bool) (id : N) : prog st unit :=
    found ← act (fun s => (s, get_object J s id));
    match found with
    | None => mret tt
    | Some _ =>
        delete_object id;;
        hnsw_delete id;;
        flush io
    end.

  (** collection_get.go:11-34 Get *)
  Definition get (ids : list N) : prog st (list object) :=
    act (fun s => (s, if closed s then Err ECollectionClosed else get_objects J s ids)).

  (** entities/objstore/object.go:17-21 ObjectWithDistance *)
  Record hit := Hit { h_id : N; h_props : props; h_dist : fl }.

  (** collection_get.go:65-73: objs[i] paired with results[i] *)
  Fixpoint pair_results (os : list object) (es : list elem) : out (list hit) :=
    match es with
    | [] => Val []
    | e :: es' =>
        match os with
        | [] => Pan PIndex
        | o :: os' => r ← pair_results os' es'; Val (Hit (o_id o) (o_props o) (e_dist e) :: r)
        end
    end.

  (** collection_get.go:37-77 SemanticSearch.  Result: Hits and the objects. *)
  Definition semantic_search (tid : nat) (o : object) (k : Z) : prog st (nat * list hit) :=
    check_open;;
    os ← lift (embed_objects [o]);
    match os with
    | [o'] =>
        es ← hnsw_search (cp_h C) tid (cp_fuel C) (vec_or_nil o') k;
        objs ← act (fun s => (s, get_objects J s (e_id <$> es)));
        hs ← lift (pair_results objs es);
        mret (length es, hs)
    | _ => Done (Pan PIndex)
    end.

  (** collection_update.go:6-16 Update: does nothing *)
  Definition update (o : object) : prog st unit := check_open.

  (** collection.go:96-102 GetConfig; [cfg] is c.config *)
  Definition get_config {A} (cfg : A) : prog st A :=
    act (fun s => (s, if closed s then Err ECollectionClosed else Val cfg)).

  (** collection.go:105-111 GetSize *)
  Definition get_size : prog st nat :=
    act (fun s => (s, if closed s then Err ECollectionClosed else Val (store_size s))).

  (** collection.go:114-129 Close: a second Close fails in idCounter.close; the
      log batch is not flushed *)
  Definition close : prog st unit :=
    act (fun s => if closed s then (s, Err EFileClosed) else (set_closed true s, Val tt)).

  (** startup.go:34-53 populateVerticesVectors: every key of the vector store;
      nodes[id] missing is a nil dereference *)
  Fixpoint populate (m : gmap bytes bytes) (kvs : list (bytes * bytes)) (s : st) : out st :=
    match kvs with
    | [] => Val s
    | (k, _) :: rest =>
        id ← or_pan PIndex (le_get 8 k);
        ov ← get_vector m id;
        match nodes s !! id with
        | None => Pan PNil
        | Some v =>
            populate m rest (set_nodes (<[id := Vertex (v_conns v) (default [] ov) (v_lock v)]> (nodes s)) s)
        end
    end.

  (** collection.go:38-93 newCollection on what is on disk: open the stores,
      the counter, then hnsw.go:64-77 (newWal, loadFromWAL, populate) *)
  Definition reopen (d : disk) : out st :=
    c ← open_counter (d_cfile d);
    let s0 := St 0 0 ∅ ∅ false [] (u64 (N.of_nat (length (d_log d)) + 1)) (d_log d)
                 c (d_cfile d) (d_objs d) (d_vecs d) [] false in
    s1 ← replay (d_log d) s0;
    populate (d_vecs d) (map_to_list (d_vecs d)) s1.
End coll.

(** A new, empty collection. *)
Definition empty_st : st := St 0 0 ∅ ∅ false [] 1 [] 0 [] ∅ ∅ [] false.
