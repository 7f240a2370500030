(** Insert, InsertBatch and InsertBatch2 take pointers.  Here the objects of
    the caller are memory: [insert] writes obj.Id and reads the fields of obj
    again and again (collection_insert.go:147-160, store.go:37-56), and the
    same pointer may occur more than once in a batch.  In CollModel objects
    are values.  Simplification: no pointer is nil. *)
From stdpp Require Import relations.
From Verif Require Import GoBase FloatModel HeapModel ProgModel StateModel WalModel HnswModel StoreModel CollModel.
Open Scope nat_scope.

(** The object a pointer points to. *)
Definition cmem := nat -> object.
Definition mset (p : nat) (f : object -> object) (m : cmem) : cmem := fun q => if q =? p then f (m p) else m q.

(** The collection, the memory, and the pointers (with their levels) that are
    still in the channel of InsertBatch2.  [chan] of the collection goes
    along with them, so that the two models can be compared; nothing reads it. *)
Record pst := PSt { p_st : st; p_mem : cmem; p_chan : list (nat * nat) }.

(** Code that does not touch the caller's objects. *)
Fixpoint on_st {A} (p : prog st A) : prog pst A :=
  match p with
  | Done r => Done r
  | Step f => Step (fun x =>
      match f (p_st x) with
      | Some (s', p') => Some (PSt s' (p_mem x) (p_chan x), on_st p')
      | None => None
      end)
  end.
(** Reading a field of [*p], and assigning to one. *)
Definition read_at {A} (g : object -> A) (p : nat) : prog pst A := act (fun x => (x, Val (g (p_mem x p)))).
Definition write_at (f : object -> object) (p : nat) : prog pst unit :=
  act (fun x => (PSt (p_st x) (mset p f (p_mem x)) (p_chan x), Val tt)).

Section ptr.
  Context (C : cparams).
  Notation J := (cp_json C).

  (** text2vec-huggingface.go:114-116 *)
  Fixpoint assign_ptr (ps : list nat) (er : list fvec) (m : cmem) : cmem * out unit :=
    match ps with
    | [] => (m, Val tt)
    | p :: ps' =>
        match er with
        | [] => (m, Pan PIndex)
        | v :: er' => assign_ptr ps' er' (mset p (fun o => Object (o_id o) (o_props o) (Some v)) m)
        end
    end.
  (** collection.go:153-177 *)
  Definition embed_ptr (ps : list nat) (m : cmem) : cmem * out unit :=
    match cp_embed C with
    | None => (m, if existsb needs_vec (m <$> ps) then Err EMissingVector else Val tt)
    | Some E =>
        let need := List.filter (fun p => needs_vec (m p)) ps in
        match E (m <$> need) with
        | None => (m, Err EEmbed)
        | Some er => assign_ptr need er m
        end
    end.
  (** collection_insert.go:41-52 and 99-110 *)
  Definition prepare_ptr (s : st) (ps : list nat) (m : cmem) : cmem * out unit :=
    if closed s then (m, Err ECollectionClosed)
    else match validate_objects C 0 (m <$> ps) with
         | Val _ => embed_ptr ps m
         | Err e => (m, Err e)
         | Pan z => (m, Pan z)
         end.

  (** collection_insert.go:147-160, with store.go:37-49 *)
  Definition insert_ptr (tid level p : nat) : prog pst nat :=
    id ← on_st fetch_and_inc;
    write_at (fun o => Object id (o_props o) (o_vec o)) p;;
    i ← read_at o_id p;
    ps ← read_at o_props p;
    v ← read_at o_vec p;
    on_st (put_object J (cp_maxval C) (Object i ps v));;
    v' ← read_at o_vec p;
    i' ← read_at o_id p;
    on_st (hnsw_insert (cp_h C) tid (cp_fuel C) level (default [] v') i');;
    mret p.

  (** collection_insert.go:67-76; the result is what was inserted *)
  Fixpoint worker_ptr (tid : nat) (ps : list (nat * nat)) : prog pst (list nat) :=
    match ps with
    | [] => mret []
    | (p, level) :: ps' =>
        insert_ptr tid level p;;
        done ← worker_ptr tid ps';
        mret (p :: done)
    end.
  (** collection_insert.go:119-133 *)
  Fixpoint worker2_ptr (n : nat) (tid : nat) : prog pst (list nat) :=
    x ← act (fun x =>
      match p_chan x with
      | [] => (x, Val None)
      | p :: ps => (PSt (set_chan (tail (chan (p_st x))) (p_st x)) (p_mem x) ps, Val (Some p))
      end);
    match x with
    | None => mret []
    | Some (p, level) =>
        insert_ptr tid level p;;
        match n with
        | O => Done (Pan PFuel)
        | S n' => done ← worker2_ptr n' tid; mret (p :: done)
        end
    end.
  Definition threads_ptr (two : bool) (ps : list (nat * nat)) : list (prog pst (list nat)) :=
    (fun i => if two then worker2_ptr (length ps) (S i) else worker_ptr (S i) (chunk (cp_workers C) i ps)) <$> seq 0 (cp_workers C).

  (** InsertBatch ([two]: InsertBatch2) on these pointers: the collection and
      the memory afterwards, the answer, and what each worker inserted. *)
  Inductive batch_ptr (two io : bool) (ps : list (nat * nat)) (s : st) (m : cmem) :
      st -> cmem -> out unit -> list (out (list nat)) -> Prop :=
  | PtrRefused m' r : prepare_ptr s ps.*1 m = (m', r) -> r <> Val tt -> batch_ptr two io ps s m s m' r []
  | PtrOk m1 s1 x rs s2 r :
      prepare_ptr s ps.*1 m = (m1, Val tt) ->
      s1 = (if two then set_chan ((fun pl => (m1 (fst pl), snd pl)) <$> ps) s else s) ->
      rtc mstep (PSt s1 m1 (if two then ps else []), threads_ptr two ps) (x, Done <$> rs) ->
      group_wait rs (Val tt) -> wal_flush io (p_st x) = (s2, r) ->
      batch_ptr two io ps s m (if two then set_chan [] s2 else s2) (p_mem x) r rs
  | PtrErr m1 s1 x rs e :
      prepare_ptr s ps.*1 m = (m1, Val tt) ->
      s1 = (if two then set_chan ((fun pl => (m1 (fst pl), snd pl)) <$> ps) s else s) ->
      rtc mstep (PSt s1 m1 (if two then ps else []), threads_ptr two ps) (x, Done <$> rs) ->
      group_wait rs (Err e) ->
      batch_ptr two io ps s m (if two then set_chan [] (p_st x) else p_st x) (p_mem x) (Err e) rs.
End ptr.
