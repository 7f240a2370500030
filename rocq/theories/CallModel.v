(** Histories of API calls on one collection: complete calls, restarts of the
    process and crashes in the middle of a call.

    Insert, InsertBatch, InsertBatch2 and Delete hold c.mu while they change
    anything, so complete calls are taken one after the other; inside a batch
    the workers run in any interleaving.  The GetObject of Delete
    (collection_delete.go:7) precedes the lock: its answer may be one that was
    right a while ago ([looked_up]).  C61 (PropLin.v) relates these histories to
    the calls of several goroutines. *)
From stdpp Require Import relations.
From Verif Require Import GoBase FloatModel HeapModel ProgModel StateModel WalModel HnswModel StoreModel CollModel.
Open Scope nat_scope.

(** The calls of db/collection*.go.  [io]: whether the disk accepts the write
    of the index log.  A [nat] next to an object is the random level its
    vertex draws (hnsw.go:91-93). *)
Inductive call :=
| CInsert (io : bool) (level : nat) (o : object)
| CBatch (io : bool) (ol : list (object * nat))
| CBatch2 (io : bool) (ol : list (object * nat))
| CDelete (io : bool) (id : N)
| CGet (ids : list N)
| CSearch (o : object) (k : Z)
| CSize
| CUpdate (o : object)
| CClose.

(** What a call hands back.  For a batch: the returned error and, per worker,
    the objects it completed (their Id fields are visible to the caller). *)
Inductive reply :=
| RIns (r : out object)
| RBatch (r : out unit) (rs : list (out (list object)))
| RUnit (r : out unit)
| RGet (r : out (list object))
| RSearch (r : out (nat * list hit))
| RSize (r : out nat).

Section calls.
  Context (C : cparams).

  (** The object is stored, or is marked as deleted. *)
  Definition known (s : st) (id : N) : Prop :=
    objs s !! id_key id <> None \/ exists id', id_key id' = id_key id /\ id' ∈ deleted s.
  (** What the GetObject of a Delete of [id] may have answered when the rest of
      the call runs in [s]. *)
  Inductive looked_up (s : st) (id : N) : out (option object) -> Prop :=
  | LookNow : looked_up s id (get_object (cp_json C) s id)
  | LookGone : objs s !! id_key id = None \/ vecs s !! id_key id = None -> looked_up s id (Val None)
  | LookClosed : closed s = true -> looked_up s id (Err EFileClosed)
  | LookSeen o : known s id -> looked_up s id (Val (Some o)).
  (** collection_delete.go:6-31 Delete, [f] being the answer of GetObject; see
      delete_obj *)
  Definition delete_found (f : out (option object)) (io : bool) (id : N) : prog st unit :=
    found ← act (fun s => (s, f));
    match found with
    | None => mret tt
    | Some _ =>
        delete_object id;;
        hnsw_delete id;;
        flush io
    end.

  (** A complete call in state [s]: the state afterwards and the reply. *)
  Inductive call_run (s : st) : call -> st -> reply -> Prop :=
  | RunInsert io level o s' r :
      exec (insert C 0 io level o) s = Some (s', r) ->
      call_run s (CInsert io level o) s' (RIns r)
  | RunBatchRefused io ol r :
      (* collection_insert.go:41-51: an error (or panic) before any work *)
      batch_prepare C s (ol.*1) = r -> (forall os, r <> Val os) ->
      call_run s (CBatch io ol) s (RBatch (_ ← r; Val tt) [])
  | RunBatch io ol os s' r rs :
      batch_prepare C s (ol.*1) = Val os ->
      batch_run io (batch_threads C (zip os (ol.*2))) s s' r rs ->
      call_run s (CBatch io ol) s' (RBatch r rs)
  | RunBatch2Refused io ol r :
      batch_prepare C s (ol.*1) = r -> (forall os, r <> Val os) ->
      call_run s (CBatch2 io ol) s (RBatch (_ ← r; Val tt) [])
  | RunBatch2 io ol os s' r rs :
      (* collection_insert.go:110-114: the channel exists during the call only *)
      batch_prepare C s (ol.*1) = Val os ->
      batch_run io (batch2_threads C (zip os (ol.*2))) (set_chan (zip os (ol.*2)) s) s' r rs ->
      call_run s (CBatch2 io ol) (set_chan [] s') (RBatch r rs)
  | RunDelete io id f s' r :
      looked_up s id f -> exec (delete_found f io id) s = Some (s', r) ->
      call_run s (CDelete io id) s' (RUnit r)
  | RunGet ids s' r :
      exec (get C ids) s = Some (s', r) ->
      call_run s (CGet ids) s' (RGet r)
  | RunSearch o k s' r :
      exec (semantic_search C 0 o k) s = Some (s', r) ->
      call_run s (CSearch o k) s' (RSearch r)
  | RunSize s' r :
      exec get_size s = Some (s', r) ->
      call_run s CSize s' (RSize r)
  | RunUpdate o s' r :
      exec (update o) s = Some (s', r) ->
      call_run s (CUpdate o) s' (RUnit r)
  | RunClose s' r :
      exec close s = Some (s', r) ->
      call_run s CClose s' (RUnit r).

  (** A call in state [s] that has got as far as [s']: before its first step,
      or between any two atomic steps of any of its goroutines. *)
  Inductive call_cut (s : st) : call -> st -> Prop :=
  | CutStart c : call_cut s c s
  | CutInsert io level o s' ts :
      rtc mstep (s, [insert C 0 io level o]) (s', ts) ->
      call_cut s (CInsert io level o) s'
  | CutBatch io ol os s' ts :
      batch_prepare C s (ol.*1) = Val os ->
      rtc mstep (s, batch_threads C (zip os (ol.*2))) (s', ts) ->
      call_cut s (CBatch io ol) s'
  | CutBatch2 io ol os s' ts :
      batch_prepare C s (ol.*1) = Val os ->
      rtc mstep (set_chan (zip os (ol.*2)) s, batch2_threads C (zip os (ol.*2))) (s', ts) ->
      call_cut s (CBatch2 io ol) s'
  | CutDelete io id f s' ts :
      looked_up s id f -> rtc mstep (s, [delete_found f io id]) (s', ts) ->
      call_cut s (CDelete io id) s'.

  (** What can happen to a collection. *)
  Inductive event :=
  | EvCall (c : call) (r : reply)   (* a complete call *)
  | EvRestart                       (* the process ends between calls and the collection is opened again *)
  | EvCrash (c : call) (n : nat).   (* the process dies during [c], when [n] of the buffered log
                                       records have reached the disk, and the collection is opened again *)

  Inductive ev_step (s : st) : event -> st -> Prop :=
  | StepCall c s' r : call_run s c s' r -> ev_step s (EvCall c r) s'
  | StepRestart s' : reopen (disk_of s) = Val s' -> ev_step s EvRestart s'
  | StepCrash c n s1 s' :
      call_cut s c s1 -> reopen (disk_of (wal_flush_torn n s1)) = Val s' ->
      ev_step s (EvCrash c n) s'.

  (** A history: what happened, from one state to another.  A reopening that
      fails ends every history. *)
  Inductive hist (s : st) : list event -> st -> Prop :=
  | HistNil : hist s [] s
  | HistSnoc h e s1 s2 : hist s h s1 -> ev_step s1 e s2 -> hist s (h ++ [e]) s2.
End calls.

(** The objects a reply acknowledges: they carry the Ids they were given. *)
Definition out_list {A} (r : out (list A)) : list A := match r with Val l => l | _ => [] end.
Definition acked (e : event) : list object :=
  match e with
  | EvCall _ (RIns (Val o)) => [o]
  | EvCall _ (RBatch (Val _) rs) => mjoin (out_list <$> rs)
  | _ => []
  end.
Definition acked_ids (h : list event) : list N := o_id <$> mjoin (acked <$> h).

(** The objects a call is given to insert. *)
Definition submitted (c : call) : list object :=
  match c with
  | CInsert _ _ o => [o]
  | CBatch _ ol | CBatch2 _ ol => ol.*1
  | _ => []
  end.

(** How many ids an event may ask for. *)
Definition ev_inserts (e : event) : nat :=
  match e with
  | EvCall c _ | EvCrash c _ => length (submitted c)
  | EvRestart => 0
  end.
Definition hist_inserts (h : list event) : nat := sum_list (ev_inserts <$> h).

(** Does the event try to delete [id]?  (Ids are 64-bit numbers.) *)
Definition ev_deletes (id : N) (e : event) : bool :=
  match e with
  | EvCall (CDelete _ i) _ | EvCrash (CDelete _ i) _ => bool_decide (u64 i = id)
  | _ => false
  end.
