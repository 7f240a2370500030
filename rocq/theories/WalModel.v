(** The index log: record codec (wal.go, deserialize.go), buffered writing,
    flushing and replay. *)
From Verif Require Import GoBase FloatModel StateModel.

(** db/core/index/hnsw/wal.go:11-17 opcodes (iota) *)
Definition opAddVertex : N := 0.
Definition opSetEntry : N := 1.
Definition opSetConns : N := 2.
Definition opAddConn : N := 3.
Definition opDelete : N := 4.

(** bytes[0] = op *)
Definition put_op (b : bytes) (op : N) : out bytes := put_at b 0 [op].

(** wal.go:54-66 addVertex; [level] is len(v.connections)-1 *)
Definition enc_add_vertex (id : N) (level : nat) : out bytes :=
  b ← put_op (zero_bytes 13) opAddVertex;
  b ← put_u64 b 1 id;
  put_u32 b 9 (u32 (N.of_nat level)).

(** wal.go:68-80 setEntryPointWithMaxLayer *)
Definition enc_set_entry (id : N) (level : nat) : out bytes :=
  b ← put_op (zero_bytes 13) opSetEntry;
  b ← put_u64 b 1 id;
  put_u32 b 9 (u32 (N.of_nat level)).

(** wal.go:94-98 the loop writing the neighbours *)
Fixpoint put_ids (b : bytes) (off : nat) (ns : list N) : out bytes :=
  match ns with
  | [] => Val b
  | n :: ns' => b ← put_u64 b off n; put_ids b (off + 8) ns'
  end.

(** wal.go:82-101 setConnectionsAtLevel *)
Definition enc_set_conns (id : N) (level : nat) (ns : list N) : out bytes :=
  b ← put_op (zero_bytes (17 + 8 * length ns)) opSetConns;
  b ← put_u64 b 1 id;
  b ← put_u32 b 9 (u32 (N.of_nat level));
  b ← put_u32 b 13 (u32 (N.of_nat (length ns)));
  put_ids b 17 ns.

(** wal.go:103-116 addConnectionAtLevel *)
Definition enc_add_conn (id : N) (level : nat) (n : N) : out bytes :=
  b ← put_op (zero_bytes 21) opAddConn;
  b ← put_u64 b 1 id;
  b ← put_u32 b 9 (u32 (N.of_nat level));
  put_u64 b 13 n.

(** wal.go:118-129 deleteVertex *)
Definition enc_delete (id : N) : out bytes :=
  b ← put_op (zero_bytes 9) opDelete;
  put_u64 b 1 id.

(** wal.go:135-141 writeBatch *)
Definition wal_append (data : bytes) (s : st) : st :=
  set_wal (batch s ++ [(wseq s, data)]) (u64 (wseq s + 1)) (wlog s) s.

(** tidwall/wal Log.WriteBatch: the i-th entry must have index LastIndex+i+1 *)
Fixpoint in_order (n : N) (b : list (N * bytes)) : bool :=
  match b with
  | [] => true
  | (i, _) :: b' => (i =? n)%N && in_order (n + 1) b'
  end.

(** wal.go:44-52 flush.  [io] says whether the disk accepts the write; a
    failing write is modelled as writing nothing. *)
Definition wal_flush (io : bool) (s : st) : st * out unit :=
  match batch s with
  | [] => (s, Val tt)
  | _ =>
      if in_order (N.of_nat (length (wlog s)) + 1) (batch s) then
        if io then (set_wal [] (wseq s) (wlog s ++ (snd <$> batch s)) s, Val tt)
        else (s, Err EIO)
      else (s, Err EOutOfOrder)
  end.

(** The disk after a crash in the middle of a flush: a prefix of the batch has
    been written (LogModel has torn records). *)
Definition wal_flush_torn (n : nat) (s : st) : st :=
  set_wal [] (wseq s) (wlog s ++ take n (snd <$> batch s)) s.

(** The part of the index the log describes. *)
Definition init_conns (level : nat) : list (list N) := replicate (level + 1) [].

(** deserialize.go:37-49 addVertex: v.Init(level+1, ...); nodes[v.id] = &v *)
Definition de_add_vertex (r : bytes) (s : st) : out st :=
  id ← get_u64 r 0;
  level ← get_u32 r 8;
  Val (set_nodes (<[id := Vertex (init_conns (N.to_nat level)) [] None]> (nodes s)) s).

(** deserialize.go:51-60 setEntryPointWithMaxLayer *)
Definition de_set_entry (r : bytes) (s : st) : out st :=
  id ← get_u64 r 0;
  level ← get_u32 r 8;
  Val (set_entry id (N.to_nat level) s).

(** vertex.go:28-30 AddConnection; v nil or level out of range panics *)
Definition vertex_add_conn (v : vertex) (level : nat) (id : N) : out vertex :=
  cs ← or_pan PIndex (v_conns v !! level);
  Val (Vertex (<[level := cs ++ [id]]> (v_conns v)) (v_vec v) (v_lock v)).
(** vertex.go:36-38 SetConnections *)
Definition vertex_set_conns (v : vertex) (level : nat) (ids : list N) : out vertex :=
  _ ← or_pan PIndex (v_conns v !! level);
  Val (Vertex (<[level := ids]> (v_conns v)) (v_vec v) (v_lock v)).

(** deserialize.go:61-76 addConnectionAtLevel *)
Definition de_add_conn (r : bytes) (s : st) : out st :=
  id ← get_u64 r 0;
  level ← get_u32 r 8;
  nid ← get_u64 r 12;
  v ← or_pan PNil (nodes s !! id);
  v' ← vertex_add_conn v (N.to_nat level) nid;
  Val (set_nodes (<[id := v']> (nodes s)) s).

(** deserialize.go:92-95 the loop reading the neighbours *)
Fixpoint get_ids (r : bytes) (off : nat) (size : nat) : out (list N) :=
  match size with
  | O => Val []
  | S k => n ← get_u64 r off; ns ← get_ids r (off + 8) k; Val (n :: ns)
  end.

(** deserialize.go:77-98 setConnectionsAtLevel *)
Definition de_set_conns (r : bytes) (s : st) : out st :=
  id ← get_u64 r 0;
  level ← get_u32 r 8;
  size ← get_u32 r 12;
  ns ← get_ids r 16 (N.to_nat size);
  v ← or_pan PNil (nodes s !! id);
  v' ← vertex_set_conns v (N.to_nat level) ns;
  Val (set_nodes (<[id := v']> (nodes s)) s).

(** deserialize.go:100-107 deleteVertex *)
Definition de_delete (r : bytes) (s : st) : out st :=
  id ← get_u64 r 0;
  Val (set_deleted ({[id]} ∪ deleted s) s).

(** deserialize.go:12-35 restore; an empty record panics in getOp *)
Definition restore (record : bytes) (s : st) : out st :=
  match record with
  | [] => Pan PIndex
  | op :: r =>
      if (op =? opAddVertex)%N then de_add_vertex r s
      else if (op =? opSetEntry)%N then de_set_entry r s
      else if (op =? opSetConns)%N then de_set_conns r s
      else if (op =? opAddConn)%N then de_add_conn r s
      else if (op =? opDelete)%N then de_delete r s
      else Err (EOpcode op)
  end.

(** startup.go:11-31 loadFromWAL: all records from index 1 on, in order *)
Fixpoint replay (records : list bytes) (s : st) : out st :=
  match records with
  | [] => Val s
  | r :: rs => s' ← restore r s; replay rs s'
  end.
