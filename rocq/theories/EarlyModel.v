(** Batches whose call is over before their workers are.

    pond's GroupContext.Wait (collection_insert.go:82, 136) returns as soon as
    one task has returned an error, or the caller's context is cancelled.  The
    batch call then returns that error and gives c.mu back; tasks that have
    started go on, tasks that have not are skipped.  LinModel waits for all the
    workers.  Here the workers that are left behind run on, next to the
    goroutines that call the collection. *)
From stdpp Require Import relations.
From Verif Require Import GoBase FloatModel HeapModel ProgModel StateModel WalModel HnswModel StoreModel CollModel CallModel LinModel.
Open Scope nat_scope.

(** What a batch leaves behind: what is still in its channel (InsertBatch2),
    and its workers.  A worker that is never scheduled is a skipped task. *)
Notation group := (list (object * nat) * list (prog st (list object)))%type.
Notation esys := (st * list client * list group)%type.

Section early.
  Context (C : cparams).
  Notation J := (cp_json C).

  (** store.go:58-112, collection_get.go:19-33: Get read by read.  LinModel
      takes it as one step, which is right while nobody writes under c.mu, so
      these are used once a batch has left workers behind. *)
  Fixpoint get_each (ids : list N) : prog st (list object) :=
    match ids with
    | [] => mret []
    | id :: rest =>
        ob ← act (fun s => (s,
          match objs s !! id_key id with
          | None => Val None
          | Some ob => if closed s then Err EFileClosed else Val (Some ob)
          end));
        o ← match ob with
            | None => mret None
            | Some ob => act (fun s => (s,
                match vecs s !! id_key id with
                | None => Val None
                | Some vb =>
                    if closed s then Err EFileClosed
                    else p ← de_props J ob; v ← de_vec vb; Val (Some (Object id p (Some v)))
                end))
            end;
        os ← get_each rest;
        mret (match o with Some o => o :: os | None => os end)
    end.
  Definition get_steps (ids : list N) : prog st (list object) := check_open;; get_each ids.
  (** collection_get.go:37-77, likewise *)
  Definition search_steps (tid : nat) (o : object) (k : Z) : prog st (nat * list hit) :=
    check_open;;
    os ← lift (embed_objects C [o]);
    match os with
    | [o'] =>
        es ← hnsw_search (cp_h C) tid (cp_fuel C) (vec_or_nil o') k;
        objs ← get_each (e_id <$> es);
        hs ← lift (pair_results objs es);
        mret (length es, hs)
    | _ => Done (Pan PIndex)
    end.

  (** One step.  The channel of the state is that of the batch under c.mu; a
      worker left behind sees the channel of its own batch. *)
  Inductive estep : esys -> list vis -> esys -> Prop :=
  | EsClient s ts gs vs s' ts' :
      con_step C (s, ts) vs (s', ts') -> estep (s, ts, gs) vs (s', ts', gs)
  | EsGet s ts gs i ids :
      ts !! i = Some (TCall (CGet ids)) -> Forall (fun t => ~ holds_x t) ts -> gs <> [] ->
      estep (s, ts, gs) [] (s, <[i := TR (CGet ids) (YGet (get_steps ids))]> ts, gs)
  | EsSearch s ts gs i o k :
      ts !! i = Some (TCall (CSearch o k)) -> Forall (fun t => ~ holds_x t) ts -> gs <> [] ->
      estep (s, ts, gs) [] (s, <[i := TR (CSearch o k) (YSearch (search_steps 0 o k))]> ts, gs)
  (* collection_insert.go:82-85, 136-139 *)
  | EsEarly s ts gs i c two io ws e :
      ts !! i = Some (TX c (XWork two io ws)) -> e = ECanceled \/ Done (Err e) ∈ ws ->
      estep (s, ts, gs) [] (set_chan [] s, <[i := TX c (XEnd (RBatch (Err e) []))]> ts, gs ++ [(chan s, ws)])
  | EsGroup s ts gs j q ws s1 ws' :
      gs !! j = Some (q, ws) -> mstep (set_chan q s, ws) (s1, ws') ->
      estep (s, ts, gs) [] (set_chan (chan s) s1, ts, <[j := (chan s1, ws')]> gs).

  Inductive erun : esys -> list vis -> esys -> Prop :=
  | ERunNil m : erun m [] m
  | ERunSnoc m vs1 m1 vs2 m2 : erun m vs1 m1 -> estep m1 vs2 m2 -> erun m (vs1 ++ vs2) m2.
End early.
