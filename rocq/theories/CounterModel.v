(** The id counter on a disk whose writes may be cut short: db/idcounter.go. *)
From Verif Require Import GoBase CollModel.
Open Scope nat_scope.

(** db/idcounter.go:11-15 IdCounter: the number and what is in the file *)
Record ctr := Ctr { ct_count : N; ct_file : bytes }.

(** db/idcounter.go:17-39 newIdCounter on a file with these bytes *)
Definition ctr_open (f : bytes) : out ctr := c ← open_counter f; Val (Ctr c f).

(** db/idcounter.go:53 binary.Write of c.count at offset 0; when the machine or
    the disk fails, only the first [k] bytes may have arrived.  The rest of the
    file is as it was. *)
Definition ctr_bytes (c : N) : bytes := le_put 8 (u64 (c + 1)).
Definition ctr_written (k : nat) (s : ctr) : bytes := take k (ctr_bytes (ct_count s)) ++ drop k (ct_file s).

(** db/idcounter.go:41-63 fetchAndInc: the id handed out, and the counter after *)
Definition ctr_fetch (s : ctr) : N * ctr := (ct_count s, Ctr (u64 (ct_count s + 1)) (ctr_written 8 s)).

(** What happens to a counter: somebody fetches an id; the process ends and the
    counter is opened again; it ends inside a fetch of which [k] bytes arrived, no id
    is handed out, and the counter is opened again; the disk refuses the write of a
    fetch when [k] bytes have arrived, no id is handed out, and the process goes on
    (idcounter.go:45-60: the number in memory has gone up). *)
Inductive cev := CFetch | CReopen | CTorn (k : nat) | CFail (k : nat).
(** The counter after the events and the ids handed out, in order; an error if
    it cannot be opened. *)
Definition ctr_step (s : ctr) (e : cev) : out (ctr * list N) :=
  match e with
  | CFetch => Val ((ctr_fetch s).2, [(ctr_fetch s).1])
  | CReopen => s' ← ctr_open (ct_file s); Val (s', [])
  | CTorn k => s' ← ctr_open (ctr_written k s); Val (s', [])
  | CFail k => Val (Ctr (u64 (ct_count s + 1)) (ctr_written k s), [])
  end.
Fixpoint ctr_run (s : ctr) (evs : list cev) : out (ctr * list N) :=
  match evs with
  | [] => Val (s, [])
  | e :: evs' => '(s1, l1) ← ctr_step s e; '(s2, l2) ← ctr_run s1 evs'; Val (s2, l1 ++ l2)
  end.
(** The counter of a new collection: an empty file. *)
Definition ctr_new : ctr := Ctr 0 [].
