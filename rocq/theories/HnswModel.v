(** The HNSW index: db/core/index/hnsw/{insert,search,neighbors_select,delete}.go.
    All functions are programs of atomic steps over [st].  [tid] is the number
    of the executing thread (only used to mark the holder of a vertex mutex). *)
From Verif Require Import GoBase FloatModel HeapModel ProgModel StateModel WalModel.
Open Scope nat_scope.

(** db/core/index/hnsw/hnsw.go:36-62: the parameters an index runs with;
    [mMax0] is 2 * mMax (line 48). *)
Record hparams := HParams {
  hp_m : nat; hp_mMax : nat; hp_efc : nat; hp_ef : nat;
  hp_heuristic : bool; hp_dist : dist_kind
}.
Definition mMax0 (P : hparams) : nat := 2 * hp_mMax P.

Notation hprog := (prog st).

Section hnsw.
  Context (P : hparams) (tid : nat).

  Definition dist (v1 v2 : fvec) : out fl := dist_func (hp_dist P) v1 v2.

  (** h.RLock(); x := h.nodes[id]; h.RUnlock(); first use of x dereferences it *)
  Definition read_vertex (id : N) : hprog vertex :=
    act (fun s => (s, or_pan PNil (nodes s !! id))).

  (** wal.go:135-141 writeBatch, one atomic step under wal.mu *)
  Definition wal_write (data : out bytes) : hprog unit :=
    match data with
    | Val d => act (fun s => (wal_append d s, Val tt))
    | Err e => Done (Err e)
    | Pan p => Done (Pan p)
    end.

  (** search.go:77-80: cVertex.Lock(); copy of GetConnections(level);
      cVertex.Unlock().  connections has capacity mMax0 (search.go:63), so a
      longer list makes the slice expression panic; a panic happens between
      Lock and Unlock and leaves the mutex held.  Simplification: the two calls
      of GetConnections see the same list. *)
  Definition read_conns (id : N) (level : nat) : hprog (list N) :=
    act_lock (fun s =>
      match nodes s !! id with
      | None => Some (s, Pan PNil)
      | Some v =>
          match v_lock v with
          | Some _ => None
          | None =>
              let held := set_nodes (<[id := Vertex (v_conns v) (v_vec v) (Some tid)]> (nodes s)) s in
              match v_conns v !! level with
              | None => Some (held, Pan PIndex)
              | Some cs =>
                  if decide (length cs <= mMax0 P) then Some (s, Val cs) else Some (held, Pan PIndex)
              end
          end
      end).

  (** The local variables of searchLayer. *)
  Record slstate := SL { sl_visited : gset N; sl_cands : list elem; sl_near : list elem }.

  (** search.go:96-105: keep a visited neighbour if it is good enough *)
  Definition consider (ef : nat) (nid : N) (d : fl) (x : slstate) : out slstate :=
    f ← heap_peek (sl_near x);
    if fltb d (e_dist f) || (length (sl_near x) <? ef) then
      let e := Elem nid d in
      let cands := heap_push min_less (sl_cands x) e in
      let near := heap_push max_less (sl_near x) e in
      if ef <? length near then
        '(_, near') ← heap_pop max_less near;
        Val (SL (sl_visited x) cands near')
      else Val (SL (sl_visited x) cands near)
    else Val x.

  (** search.go:82-106: the loop over the connections of one candidate *)
  Fixpoint visit_conns (q : fvec) (ef : nat) (conns : list N) (x : slstate) : hprog slstate :=
    match conns with
    | [] => mret x
    | nid :: rest =>
        if bool_decide (nid ∈ sl_visited x) then visit_conns q ef rest x
        else
          let x := SL ({[nid]} ∪ sl_visited x) (sl_cands x) (sl_near x) in
          _ ← lift (heap_peek (sl_near x));
          nb ← read_vertex nid;
          d ← lift (dist (v_vec nb) q);
          x' ← lift (consider ef nid d x);
          visit_conns q ef rest x'
    end.

  (** search.go:65-107: the main loop of searchLayer; [fuel] bounds the number
      of candidates taken from the queue *)
  Fixpoint search_loop (fuel : nat) (q : fvec) (ef : nat) (level : nat) (x : slstate)
      : hprog slstate :=
    match sl_cands x with
    | [] => mret x
    | _ =>
        match fuel with
        | O => Done (Pan PFuel)
        | S fuel' =>
            '(c, cands) ← lift (heap_pop min_less (sl_cands x));
            f ← lift (heap_peek (sl_near x));
            if fltb (e_dist f) (e_dist c) then mret (SL (sl_visited x) cands (sl_near x))
            else
              conns ← read_conns (e_id c) level;
              x' ← visit_conns q ef conns (SL (sl_visited x) cands (sl_near x));
              search_loop fuel' q ef level x'
        end
    end.

  (** search.go:55-110 searchLayer; the result is the heap slice itself *)
  Definition search_layer (fuel : nat) (q : fvec) (eps : list elem) (ef level : nat)
      : hprog (list elem) :=
    cands ← lift (new_min_heap_deep eps (ef + 1));
    near ← lift (new_max_heap_deep eps (ef + 1));
    x ← search_loop fuel q ef level (SL (list_to_set (e_id <$> eps)) cands near);
    mret (sl_near x).

  (** neighbors_select.go:94-96: pop [n] times *)
  Fixpoint pop_ids (n : nat) (h : list elem) : out (list N) :=
    match n with
    | O => Val []
    | S n' => '(e, h') ← heap_pop min_less h; ids ← pop_ids n' h'; Val (e_id e :: ids)
    end.

  (** neighbors_select.go:85-99 selectNeighborsSimple *)
  Definition select_simple (cands : list elem) (m : nat) : out (list N) :=
    pop_ids (Nat.min m (length cands)) (heap_init min_less cands).

  (** neighbors_select.go:55-66: is [e] at least as near to the base vertex as
      to every already selected vertex?  [false] = discard *)
  Fixpoint heur_check (e : elem) (result : list N) : hprog bool :=
    match result with
    | [] => mret true
    | r :: rest =>
        '(ev, rv) ← act (fun s =>
          (s, ev ← or_pan PNil (nodes s !! e_id e);
              rv ← or_pan PNil (nodes s !! r); Val (ev, rv)));
        d ← lift (dist (v_vec ev) (v_vec rv));
        if fltb d (e_dist e) then mret false else heur_check e rest
    end.

  (** neighbors_select.go:52-73: [n] bounds the iterations (the queue length) *)
  Fixpoint heur_loop (n : nat) (q : list elem) (m : nat) (result : list N) : hprog (list N) :=
    match q with
    | [] => mret result
    | _ =>
        if length result <? m then
          match n with
          | O => Done (Pan PFuel)
          | S n' =>
              '(e, q') ← lift (heap_pop min_less q);
              ok ← heur_check e result;
              heur_loop n' q' m (if (ok : bool) then result ++ [e_id e] else result)
          end
        else mret result
    end.

  (** neighbors_select.go:8-83 selectNeighborsHeuristic *)
  Definition select_heuristic (cands : list elem) (m : nat) : hprog (list N) :=
    heur_loop (length cands) (heap_init min_less cands) m [].

  (** hnsw.go:58-62 *)
  Definition select_neighbors (cands : list elem) (m : nat) : hprog (list N) :=
    if hp_heuristic P then select_heuristic cands m else lift (select_simple cands m).

  (** insert.go:82-87: nVertex := h.nodes[n]; nVertex.Lock(); GetConnections(l) *)
  Definition lock_conns (n : N) (l : nat) : hprog (vertex * list N) :=
    act_lock (fun s =>
      match nodes s !! n with
      | None => Some (s, Pan PNil)
      | Some v =>
          match v_lock v with
          | Some _ => None
          | None =>
              let v' := Vertex (v_conns v) (v_vec v) (Some tid) in
              let s' := set_nodes (<[n := v']> (nodes s)) s in
              match v_conns v !! l with
              | None => Some (s', Pan PIndex)
              | Some cs => Some (s', Val (v', cs))
              end
          end
      end).

  (** insert.go:91,112: nVertex.AddConnection(l, id); nVertex.Unlock() *)
  Definition add_conn_unlock (n : N) (l : nat) (id : N) : hprog unit :=
    act (fun s =>
      match nodes s !! n with
      | None => (s, Pan PNil)
      | Some v =>
          match vertex_add_conn v l id with
          | Val v' => (set_nodes (<[n := Vertex (v_conns v') (v_vec v') None]> (nodes s)) s, Val tt)
          | Err e => (s, Err e)
          | Pan p => (s, Pan p)
          end
      end).

  (** insert.go:110,112: nVertex.SetConnections(l, ns); nVertex.Unlock() *)
  Definition set_conns_unlock (n : N) (l : nat) (ns : list N) : hprog unit :=
    act (fun s =>
      match nodes s !! n with
      | None => (s, Pan PNil)
      | Some v =>
          match vertex_set_conns v l ns with
          | Val v' => (set_nodes (<[n := Vertex (v_conns v') (v_vec v') None]> (nodes s)) s, Val tt)
          | Err e => (s, Err e)
          | Pan p => (s, Pan p)
          end
      end).

  (** insert.go:75: v.SetConnections(l, neighbors), without taking v's mutex *)
  Definition set_conns_unlocked (n : N) (l : nat) (ns : list N) : hprog unit :=
    act (fun s =>
      match nodes s !! n with
      | None => (s, Pan PNil)
      | Some v =>
          match vertex_set_conns v l ns with
          | Val v' => (set_nodes (<[n := v']> (nodes s)) s, Val tt)
          | Err e => (s, Err e)
          | Pan p => (s, Pan p)
          end
      end).

  (** insert.go:100-106: distances of the present connections to nVertex *)
  Fixpoint conn_elems (base : fvec) (cs : list N) : hprog (list elem) :=
    match cs with
    | [] => mret []
    | nn :: rest =>
        nv ← read_vertex nn;
        d ← lift (dist base (v_vec nv));
        es ← conn_elems base rest;
        mret (Elem nn d :: es)
    end.

  (** insert.go:82-112: link one selected neighbour back to the new vertex *)
  Definition link_one (id : N) (vec : fvec) (l maxConn : nat) (n : N) : hprog unit :=
    '(nv, cs) ← lock_conns n l;
    if length cs <? maxConn then
      wal_write (enc_add_conn n l id);;
      add_conn_unlock n l id
    else
      d ← lift (dist (v_vec nv) vec);
      es ← conn_elems (v_vec nv) cs;
      ns ← select_neighbors (Elem id d :: es) maxConn;
      wal_write (enc_set_conns n l ns);;
      set_conns_unlock n l ns.

  (** insert.go:81-113 *)
  Fixpoint link_all (id : N) (vec : fvec) (l maxConn : nat) (ns : list N) : hprog unit :=
    match ns with
    | [] => mret tt
    | n :: rest => link_one id vec l maxConn n;; link_all id vec l maxConn rest
    end.

  (** insert.go:69-116: the construction phase from layer [l] down to 0 *)
  Fixpoint construct (fuel : nat) (id : N) (vec : fvec) (l : nat) (eps : list elem) : hprog unit :=
    near ← search_layer fuel vec eps (hp_efc P) l;
    ns ← select_neighbors near (hp_m P);
    wal_write (enc_set_conns id l ns);;
    set_conns_unlocked id l ns;;
    link_all id vec l (match l with O => mMax0 P | _ => hp_mMax P end) ns;;
    match l with
    | O => mret tt
    | S l' => construct fuel id vec l' near
    end.

  (** insert.go:62-65 and search.go:28-31: greedy descent through the layers
      [l], [l-1], ..., [stop]+1 with a single entry point *)
  Fixpoint descend (fuel : nat) (q : fvec) (l stop : nat) (e : elem) : hprog elem :=
    match l with
    | O => mret e
    | S l' =>
        if stop <? l then
          near ← search_layer fuel q [e] 1 l;
          e' ← lift (or_pan PIndex (head near));
          descend fuel q l' stop e'
        else mret e
    end.

  (** insert.go:19-29 and 129-144: sync.Once runs its function exactly once and
      makes every other caller wait for it, so it is one atomic step.  The WAL
      record of the entry point precedes the one of the vertex. *)
  Definition once_insert (id : N) (vec : fvec) : hprog bool :=
    match enc_set_entry id 0, enc_add_vertex id 0 with
    | Val r1, Val r2 =>
        act (fun s =>
          if once s then (s, Val false)
          else
            let s := set_once true s in
            if bool_decide (nodes s = ∅) then
              let s := set_entry id 0 (wal_append r1 s) in
              let s := wal_append r2 s in
              (set_nodes (<[id := Vertex (init_conns 0) vec None]> (nodes s)) s, Val true)
            else (s, Val false))
    | _, _ => Done (Pan PIndex)
    end.

  (** insert.go:48-52 and search.go:17-21: entry point and top layer, read
      together under the read lock *)
  Definition read_entry : hprog (N * vertex * nat) :=
    act (fun s => (s, v ← or_pan PNil (nodes s !! ep s); Val (ep s, v, maxl s))).

  (** insert.go:44-46 *)
  Definition add_node (id : N) (level : nat) (vec : fvec) : hprog unit :=
    act (fun s => (set_nodes (<[id := Vertex (init_conns level) vec None]> (nodes s)) s, Val tt)).

  (** insert.go:118-124: compares with the top layer read at the beginning *)
  Definition raise_entry (id : N) (level cur : nat) : hprog unit :=
    match enc_set_entry id level with
    | Val r =>
        act (fun s =>
          if cur <? level then (set_entry id level (wal_append r s), Val tt)
          else (s, Val tt))
    | Err e => Done (Err e)
    | Pan p => Done (Pan p)
    end.

  (** insert.go:8-127 Insert.  [level] is the random level (line 39) of this
      call; it is drawn but unused when the vertex is the first one. *)
  Definition hnsw_insert (fuel : nat) (level : nat) (vec : fvec) (id : N) : hprog unit :=
    first ← once_insert id vec;
    if (first : bool) then mret tt
    else
      wal_write (enc_add_vertex id level);;
      add_node id level vec;;
      '(epid, epv, cur) ← read_entry;
      d ← lift (dist (v_vec epv) vec);
      e ← descend fuel vec cur level (Elem epid d);
      construct fuel id vec (Nat.min cur level) [e];;
      raise_entry id level cur.

  (** delete.go:4-12 Delete, one step under h.Lock *)
  Definition hnsw_delete (id : N) : hprog unit :=
    match enc_delete id with
    | Val r => act (fun s => let s := wal_append r s in (set_deleted ({[id]} ∪ deleted s) s, Val tt))
    | Err e => Done (Err e)
    | Pan p => Done (Pan p)
    end.

  (** search.go:37-50: take the k nearest that are not deleted; [n] bounds the
      iterations (the heap size) *)
  Fixpoint take_live (n : nat) (h : list elem) (dels : gset N) (k : nat) : out (list elem) :=
    match h, k with
    | [], _ => Val []
    | _, O => Val []
    | _, S k' =>
        match n with
        | O => Pan PFuel
        | S n' =>
            '(e, h') ← heap_pop min_less h;
            if bool_decide (e_id e ∈ dels) then take_live n' h' dels k
            else res ← take_live n' h' dels k'; Val (e :: res)
        end
    end.

  (** search.go:8-53 Search; make([]Element, 0, k) panics for negative k *)
  Definition hnsw_search (fuel : nat) (q : fvec) (k : Z) : hprog (list elem) :=
    if (k <? 0)%Z then Done (Pan PMake)
    else
      '(epid, epv, cur) ← read_entry;
      d ← lift (dist (v_vec epv) q);
      e ← descend fuel q cur 0 (Elem epid d);
      near ← search_layer fuel q [e] (hp_ef P) 0;
      dels ← act (fun s => (s, Val (deleted s)));
      lift (take_live (length near) (new_min_heap near) dels (Z.to_nat k)).
End hnsw.
