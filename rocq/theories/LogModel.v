(** The file of the index log, byte by byte: tidwall/wal in its binary format, as
    used by db/core/index/hnsw/wal.go.  One file only: the library starts another
    one after 20 MB. *)
From Verif Require Import GoBase StateModel WalModel CollModel.
Open Scope nat_scope.

(** encoding/binary PutUvarint, at most [f] bytes *)
Fixpoint uv_put (f : nat) (x : N) : bytes :=
  match f with
  | 0 => []
  | S f' => if (x <? 128)%N then [x] else (x mod 128 + 128)%N :: uv_put f' (x / 128)
  end.
(** encoding/binary Uvarint: the number and what follows it; [None] if the bytes
    end before, or the number has more than 64 bits *)
Fixpoint uv_get (f : nat) (b : bytes) : option (N * bytes) :=
  match f, b with
  | S f', x :: b' =>
      if (x <? 128)%N then if (f' =? 0) && (1 <? x)%N then None else Some (x, b')
      else '(v, r) ← uv_get f' b'; Some (x - 128 + 128 * v, r)%N
  | _, _ => None
  end.

(** tidwall/wal appendBinaryEntry: the length, then the data *)
Definition rec_bytes (r : bytes) : bytes := uv_put 10 (N.of_nat (length r)) ++ r.
(** wal.go:44-52 flush, tidwall/wal WriteBatch: the records of a batch are written
    one behind the other, with one write, at the end of the file *)
Definition log_bytes (rs : list bytes) : bytes := mjoin (rec_bytes <$> rs).

(** tidwall/wal loadSegmentEntries and loadNextBinaryEntry, called by Open
    (wal.go:26); [None] is ErrCorrupt.  [n] bounds the number of records. *)
Fixpoint log_parse (n : nat) (b : bytes) : option (list bytes) :=
  match b with
  | [] => Some []
  | _ =>
      match n with
      | 0 => None
      | S n' =>
          '(z, r) ← uv_get 10 b;
          if (N.of_nat (length r) <? z)%N then None
          else rs ← log_parse n' (drop (N.to_nat z) r); Some (take (N.to_nat z) r :: rs)
      end
  end.
Definition log_open (b : bytes) : option (list bytes) := log_parse (length b) b.

(** db/collection.go:38-93 newCollection with this file as the log of the index *)
Definition reopen_file (b : bytes) (d : disk) : option (out st) :=
  rs ← log_open b; Some (reopen (Disk rs (d_cfile d) (d_objs d) (d_vecs d))).

(** The file while the process runs: what is in it, and the records of the batch
    not yet written. *)
Record lfile := LFile { lf_bytes : bytes; lf_batch : list bytes }.
(** wal.go:54-141: a record is added to the batch; the batch is written; the write
    fails when [k] bytes have arrived, and the batch is kept (wal.go:45-47). *)
Inductive lev := LAdd (r : bytes) | LWrite | LFail (k : nat).
Definition lstep (f : lfile) (e : lev) : lfile :=
  match e with
  | LAdd r => LFile (lf_bytes f) (lf_batch f ++ [r])
  | LWrite => LFile (lf_bytes f ++ log_bytes (lf_batch f)) []
  | LFail k => LFile (lf_bytes f ++ take k (log_bytes (lf_batch f))) (lf_batch f)
  end.
Definition lrun (f : lfile) (evs : list lev) : lfile := foldl lstep f evs.
