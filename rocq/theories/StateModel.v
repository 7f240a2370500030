(** The state of one collection: the in-memory HNSW index, the write-ahead
    log, the id counter and the two bitcask stores. *)
From Verif Require Import GoBase FloatModel.
From stdpp Require Export strings stringmap.
Open Scope nat_scope.

(** JSON values a property may hold (map[string]interface{} after decoding). *)
Inductive jval :=
| JNull
| JBool (b : bool)
| JNum (bits : N)
| JStr (s : string)
| JArr (l : list jval)
| JObj (l : list (string * jval)).

Definition props := gmap string jval.

(** entities/objstore/object.go:10-15 Object; [o_vec = None] is a nil slice *)
Record object := Object { o_id : N; o_props : props; o_vec : option fvec }.

(** db/core/index/hnsw/vertex.go:6-12 Vertex.  [v_lock] is the holder of the
    embedded Mutex, identified by the number of the holding thread. *)
Record vertex := Vertex {
  v_conns : list (list N);
  v_vec : fvec;
  v_lock : option nat
}.

(** One collection.
    - [ep], [maxl], [nodes], [deleted], [once]: db/core/index/hnsw/hnsw.go:17-34
      (entrypointID, currentMaxLayer, nodes, deletedNodes, initialInsertion);
      currentMaxLayer and levels are nat because they are never negative for
      levels produced by M >= 2.
    - [batch], [wseq]: db/core/index/hnsw/wal.go:19-24 (buffered records with
      their sequence numbers, next number); [wlog]: the records on disk.
    - [cnt], [cfile]: db/idcounter.go:11-15 (count in memory, bytes of the file).
    - [objs], [vecs]: db/core/objstore/store.go:15-21 (two bitcask stores).
    - [chan]: the channel of InsertBatch2 (db/collection_insert.go:110-114),
      with the random level each object will draw.
    - [closed]: db/collection.go:35. *)
Record st := St {
  ep : N; maxl : nat; nodes : gmap N vertex; deleted : gset N; once : bool;
  batch : list (N * bytes); wseq : N; wlog : list bytes;
  cnt : N; cfile : bytes;
  objs : gmap bytes bytes; vecs : gmap bytes bytes;
  chan : list (object * nat);
  closed : bool
}.

Definition set_entry (e : N) (l : nat) (s : st) : st :=
  St e l (nodes s) (deleted s) (once s) (batch s) (wseq s) (wlog s) (cnt s) (cfile s) (objs s) (vecs s) (chan s) (closed s).
Definition set_nodes (n : gmap N vertex) (s : st) : st :=
  St (ep s) (maxl s) n (deleted s) (once s) (batch s) (wseq s) (wlog s) (cnt s) (cfile s) (objs s) (vecs s) (chan s) (closed s).
Definition set_deleted (d : gset N) (s : st) : st :=
  St (ep s) (maxl s) (nodes s) d (once s) (batch s) (wseq s) (wlog s) (cnt s) (cfile s) (objs s) (vecs s) (chan s) (closed s).
Definition set_once (o : bool) (s : st) : st :=
  St (ep s) (maxl s) (nodes s) (deleted s) o (batch s) (wseq s) (wlog s) (cnt s) (cfile s) (objs s) (vecs s) (chan s) (closed s).
Definition set_wal (b : list (N * bytes)) (q : N) (l : list bytes) (s : st) : st :=
  St (ep s) (maxl s) (nodes s) (deleted s) (once s) b q l (cnt s) (cfile s) (objs s) (vecs s) (chan s) (closed s).
Definition set_cnt (c : N) (f : bytes) (s : st) : st :=
  St (ep s) (maxl s) (nodes s) (deleted s) (once s) (batch s) (wseq s) (wlog s) c f (objs s) (vecs s) (chan s) (closed s).
Definition set_objs (o : gmap bytes bytes) (s : st) : st :=
  St (ep s) (maxl s) (nodes s) (deleted s) (once s) (batch s) (wseq s) (wlog s) (cnt s) (cfile s) o (vecs s) (chan s) (closed s).
Definition set_vecs (v : gmap bytes bytes) (s : st) : st :=
  St (ep s) (maxl s) (nodes s) (deleted s) (once s) (batch s) (wseq s) (wlog s) (cnt s) (cfile s) (objs s) v (chan s) (closed s).
Definition set_chan (c : list (object * nat)) (s : st) : st :=
  St (ep s) (maxl s) (nodes s) (deleted s) (once s) (batch s) (wseq s) (wlog s) (cnt s) (cfile s) (objs s) (vecs s) c (closed s).
Definition set_closed (c : bool) (s : st) : st :=
  St (ep s) (maxl s) (nodes s) (deleted s) (once s) (batch s) (wseq s) (wlog s) (cnt s) (cfile s) (objs s) (vecs s) (chan s) c.

(** What survives a process crash. *)
Record disk := Disk {
  d_log : list bytes; d_cfile : bytes;
  d_objs : gmap bytes bytes; d_vecs : gmap bytes bytes
}.
Definition disk_of (s : st) : disk := Disk (wlog s) (cfile s) (objs s) (vecs s).
Definition empty_disk : disk := Disk [] [] ∅ ∅.
