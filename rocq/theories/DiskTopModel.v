(** DiskAnn, the index over several memory indexes: db/core/index/disk_ann/
    disk_ann.go.  Insert may be called from several goroutines and starts
    goroutines of its own; between two synchronisations it is cut into steps at
    every read or write of shared state.  Not modelled: the data races proper
    (each step is atomic) and partly written snapshot files. *)
From Verif Require Import GoBase FloatModel HeapModel MMHeapModel DiskAnnModel.
Open Scope nat_scope.

(** disk_ann.go:21-27: the fields nothing changes after construction.  The
    distance function is a possibly nil func value. *)
Record dcfg := DCfg {
  dc_dist : option (fvec -> fvec -> out fl); dc_list : nat; dc_thr : fl;
  dc_deg : N; dc_dim : N; dc_limit : N
}.
(** calling a nil func panics *)
Definition dc_fn (c : dcfg) : fvec -> fvec -> out fl :=
  match dc_dist c with Some f => f | None => fun _ _ => Pan PNil end.

(** disk_ann.go:12-30 DiskAnn.  The memory indexes ever made are [da_mem], in
    that order; rwIndex and roIndexes are pointers, so positions in [da_mem].
    [da_lock]: the mutex is held.  [da_pend]: snapshot goroutines (lines 54-59)
    that have not run yet.  [da_files]: the files ro_<n>.vctry by n.  ltIndex is
    nil and its search a stub (disk_index.go:9-11). *)
Record dann := DAnn {
  da_mem : list mindex; da_rw : nat; da_ro : list nat; da_del : gset N; da_cur : N;
  da_lock : bool; da_pend : nat; da_files : gmap nat (list bytes)
}.

(** disk_ann.go:32-43 NewDiskAnn, for given settings *)
Definition new_dann (c : dcfg) : dann :=
  DAnn [new_mindex 1 (dc_deg c) (dc_dim c)] 0 [] ∅ 1 false 0 ∅.
(** disk_ann.go:33-38: the settings NewDiskAnn leaves, all zero *)
Definition default_cfg : dcfg := DCfg None 0 fzero 0 0 0.

(** Where a call of Insert is. *)
Inductive ipc :=
| IStart                                (* before line 50 *)
| IMarked                               (* lines 51-59 done, holding the lock *)
| IAppended                             (* line 61 done, holding the lock *)
| IFree                                 (* line 64 done *)
| IHasId (id : N)                       (* lines 66-67 done *)
| IAt (id : N) (p : nat)                (* line 69: da.rwIndex read *)
| IRet (id : N) (p : nat) (r : out unit). (* returned r *)
Record icall := ICall { ic_vec : fvec; ic_obj : N; ic_pc : ipc }.

(** memory_index.go:219-221 ReadOnly *)
Definition mi_close (mi : mindex) : mindex :=
  MIndex (mi_graph mi) (mi_s mi) (mi_dim mi) (mi_deg mi) (mi_first mi) (mi_once mi) true (mi_size mi).

(** The next step of a call of Insert, disk_ann.go:49-75; [None]: it waits for
    the lock. *)
Definition istep (c : dcfg) (fuel : nat) (s : dann) (v : fvec) (pc : ipc) : out (option (dann * ipc)) :=
  match pc with
  | IStart =>
      if da_lock s then Val None
      else
        mi ← or_pan PNil (da_mem s !! da_rw s);
        if (mi_count mi =? dc_limit c)%N then
          (* lines 52-59 *)
          Val (Some (DAnn (<[da_rw s := mi_close mi]> (da_mem s)) (da_rw s) (da_ro s) (da_del s) (da_cur s)
                       true (S (da_pend s)) (da_files s), IMarked))
        else Val (Some (s, IFree))
  | IMarked =>
      (* line 61 *)
      Val (Some (DAnn (da_mem s) (da_rw s) (da_ro s ++ [da_rw s]) (da_del s) (da_cur s)
                   (da_lock s) (da_pend s) (da_files s), IAppended))
  | IAppended =>
      (* lines 62-64 *)
      Val (Some (DAnn (da_mem s ++ [new_mindex (da_cur s) (dc_deg c) (dc_dim c)]) (length (da_mem s)) (da_ro s)
                   (da_del s) (da_cur s) false (da_pend s) (da_files s), IFree))
  | IFree =>
      (* lines 66-67 *)
      let nextId := u64 (da_cur s + 1) in
      Val (Some (DAnn (da_mem s) (da_rw s) (da_ro s) (da_del s) nextId (da_lock s) (da_pend s) (da_files s),
                 IHasId (u64 (nextId + 2 ^ 64 - 1))))
  | IHasId id => Val (Some (s, IAt id (da_rw s)))
  | IAt id p =>
      (* lines 69-74; the object id is dropped by insert *)
      mi ← or_pan PNil (da_mem s !! p);
      match minsert (dc_fn c) (da_del s) fuel mi v (dc_list c) (dc_thr c) id with
      | Val mi' =>
          Val (Some (DAnn (<[p := mi']> (da_mem s)) (da_rw s) (da_ro s) (da_del s) (da_cur s)
                       (da_lock s) (da_pend s) (da_files s), IRet id p (Val tt)))
      | Err e => Val (Some (s, IRet id p (Err e)))
      | Pan x => Pan x
      end
  | IRet _ _ _ => Val None
  end.

(** dal.go:23-36, 61-70: the file is opened without truncating it, so pages
    behind the new ones stay *)
Definition overwrite (old : option (list bytes)) (new : list bytes) : list bytes :=
  new ++ drop (length new) (default [] old).

(** disk_ann.go:54-59: a snapshot goroutine runs; it reads rwIndex and
    len(roIndexes) only now.  [ok]: opening and writing the file succeeds. *)
Definition snap_step (s : dann) (ok : bool) : out dann :=
  match da_pend s with
  | O => Val s
  | S n =>
      mi ← or_pan PNil (da_mem s !! da_rw s);
      f ← write_index mi;
      let fs := if ok then <[length (da_ro s) := overwrite (da_files s !! length (da_ro s)) f]> (da_files s)
                else da_files s in
      Val (DAnn (da_mem s) (da_rw s) (da_ro s) (da_del s) (da_cur s) (da_lock s) n fs)
  end.

(** disk_ann.go:77-81 Delete *)
Definition da_delete (s : dann) (obj : N) : dann :=
  DAnn (da_mem s) (da_rw s) (da_ro s) ({[obj]} ∪ da_del s) (da_cur s) (da_lock s) (da_pend s) (da_files s).

(** disk_ann.go:86-89: the results of the read-only indexes *)
Fixpoint search_ros (c : dcfg) (fuel : nat) (s : dann) (q : fvec) (k : nat) (ros : list nat) : out (list elem) :=
  match ros with
  | [] => Val []
  | p :: rest =>
      mi ← or_pan PNil (da_mem s !! p);
      es ← msearch (dc_fn c) (da_del s) fuel mi q k (dc_list c);
      es' ← search_ros c fuel s q k rest;
      Val (es ++ es')
  end.
(** disk_ann.go:83-102 Search, alone on the index *)
Definition da_search (c : dcfg) (fuel : nat) (s : dann) (q : fvec) (k : nat) : out (list elem) :=
  mi ← or_pan PNil (da_mem s !! da_rw s);
  rw ← msearch (dc_fn c) (da_del s) fuel mi q k (dc_list c);
  ro ← search_ros c fuel s q k (da_ro s);
  let h := new_mm_heap (rw ++ ro) in
  shrink (length h) h k.

(** ** Executions *)
(** The index and the calls of Insert made so far. *)
Record dsys := DSys { ds_da : dann; ds_calls : list icall }.
Inductive dev :=
| EvCall (v : fvec) (obj : N)  (* somebody calls Insert *)
| EvStep (i : nat)             (* call i takes its next step *)
| EvSnap (ok : bool)           (* a snapshot goroutine runs *)
| EvDelete (obj : N).          (* somebody calls Delete *)

Definition dstep (c : dcfg) (fuel : nat) (s : dsys) (e : dev) : out dsys :=
  match e with
  | EvCall v obj => Val (DSys (ds_da s) (ds_calls s ++ [ICall v obj IStart]))
  | EvStep i =>
      match ds_calls s !! i with
      | None => Val s
      | Some cl =>
          r ← istep c fuel (ds_da s) (ic_vec cl) (ic_pc cl);
          match r with
          | None => Val s
          | Some (da', pc') => Val (DSys da' (<[i := ICall (ic_vec cl) (ic_obj cl) pc']> (ds_calls s)))
          end
      end
  | EvSnap ok => da' ← snap_step (ds_da s) ok; Val (DSys da' (ds_calls s))
  | EvDelete obj => Val (DSys (da_delete (ds_da s) obj) (ds_calls s))
  end.
(** A panic in any goroutine ends the process. *)
Fixpoint drun (c : dcfg) (fuel : nat) (s : dsys) (evs : list dev) : out dsys :=
  match evs with
  | [] => Val s
  | e :: evs' => s' ← dstep c fuel s e; drun c fuel s' evs'
  end.
Definition dinit (c : dcfg) : dsys := DSys (new_dann c) [].

(** One call with nothing else running: all its steps in a row. *)
Definition one_insert (n : nat) (v : fvec) (obj : N) : list dev :=
  EvCall v obj :: replicate 6 (EvStep n).
