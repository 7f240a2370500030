(** What a process has open: opening and closing collections and databases when
    any of the calls into the system may fail.  Only files and locks are modelled
    here, not what is in them; deleting collections is left out. *)
From stdpp Require Import gmap.
From Verif Require Import GoBase.
Open Scope nat_scope.

(** Errors: a system call failed; the directory of a store is locked
    (bitcask.ErrDatabaseLocked); the file is closed (os.ErrClosed); the name is taken;
    the database says it is closed; the sql database is closed; no such handle. *)
Inductive rerr := XFault | XLocked | XFileClosed | XExists | XDBClosed | XSQLClosed | XNone.
Inductive rout (A : Type) := ROk (a : A) | RErr (e : rerr) | RPan.
Arguments ROk {A} a.
Arguments RErr {A} e.
Arguments RPan {A}.

(** The lock of a store: the collection's directory, and whether it is the store of
    objects or that of vectors.  bitcask.Open takes it, Close gives it back even when
    it fails. *)
Definition lock : Type := string * bool.

(** db/collection.go:21-36 Collection: which files are open (the counter, the
    stores of objects and of vectors, the log of the index), and c.closed *)
Record rcoll := RColl { rc_ctr : bool; rc_obj : bool; rc_vec : bool; rc_log : bool; rc_closed : bool }.
(** Which of the calls made by newCollection fail: opening the two stores, the
    counter, the log (or reading it). *)
Record ofault := OFault { of_obj : bool; of_vec : bool; of_ctr : bool; of_log : bool }.
Definition of_none : ofault := OFault false false false false.
(** Which of the calls made by Close fail. *)
Record cfault := CFault { cf_ctr : bool; cf_obj : bool; cf_vec : bool }.
Definition cf_none : cfault := CFault false false false.

(** objstore/store.go:24 and 29: bitcask.Open of a store *)
Definition open_store (L : gset lock) (l : lock) (fails : bool) : gset lock * option rerr :=
  if fails then (L, Some XFault) else if decide (l ∈ L) then (L, Some XLocked) else ({[l]} ∪ L, None).

(** db/collection.go:38-93 newCollection.  The error of opening the store of
    vectors is dropped (objstore/store.go:29), so the store is a nil pointer, and
    populateVerticesVectors (startup.go:42) calls a method of it.  Nothing is closed
    when a later step fails. *)
Definition open_coll (d : string) (f : ofault) (L : gset lock) : gset lock * rout rcoll :=
  let '(L1, e1) := open_store L (d, true) (of_obj f) in
  match e1 with
  | Some e => (L1, RErr e)
  | None =>
      let '(L2, e2) := open_store L1 (d, false) (of_vec f) in
      if of_ctr f then (L2, RErr XFault)
      else if of_log f then (L2, RErr XFault)
      else match e2 with
           | Some _ => (L2, RPan)
           | None => (L2, ROk (RColl true true true true false))
           end
  end.

(** db/collection.go:114-129 Close, objstore/store.go:153-163, idcounter.go:65-67.
    A file whose close fails is closed nevertheless, and closing it again is an
    error.  The log is not closed. *)
Definition close_coll (d : string) (f : cfault) (c : rcoll) (L : gset lock) : gset lock * rcoll * rout unit :=
  if negb (rc_ctr c) then (L, c, RErr XFileClosed)
  else if cf_ctr f then (L, RColl false (rc_obj c) (rc_vec c) (rc_log c) (rc_closed c), RErr XFault)
  else
    let L1 := L ∖ {[(d, true)]} in
    if cf_obj f then (L1, RColl false false (rc_vec c) (rc_log c) (rc_closed c), RErr XFault)
    else
      let L2 := L1 ∖ {[(d, false)]} in
      if cf_vec f then (L2, RColl false false false (rc_log c) (rc_closed c), RErr XFault)
      else (L2, RColl false false false (rc_log c) true, ROk tt).

(** db/db.go:12-20 DB: whether the sql database is open, the collections, db.closed *)
Record rdb := RDB { rd_sql : bool; rd_colls : gmap string rcoll; rd_closed : bool }.

(** db/db.go:135-173 init: the collections of the rows in their order *)
Fixpoint open_rows (rows : list string) (fs : string -> ofault) (L : gset lock) (m : gmap string rcoll) : gset lock * rout (gmap string rcoll) :=
  match rows with
  | [] => (L, ROk m)
  | d :: rows' =>
      let '(L1, r) := open_coll d (fs d) L in
      match r with
      | ROk c => open_rows rows' fs L1 (<[d := c]> m)
      | RErr e => (L1, RErr e)
      | RPan => (L1, RPan)
      end
  end.

(** db/db.go:119-127: the loop of Close over the collections, in some order *)
Fixpoint close_colls (order : list string) (fs : string -> cfault) (m : gmap string rcoll) (L : gset lock) : gset lock * gmap string rcoll * rout unit :=
  match order with
  | [] => (L, m, ROk tt)
  | d :: order' =>
      match m !! d with
      | None => close_colls order' fs m L
      | Some c =>
          if rc_closed c then close_colls order' fs m L
          else
            let '(L1, c1, r) := close_coll d (fs d) c L in
            match r with
            | ROk _ => close_colls order' fs (<[d := c1]> m) L1
            | RErr e => (L1, <[d := c1]> m, RErr e)
            | RPan => (L1, <[d := c1]> m, RPan)
            end
      end
  end.

(** db/db.go:111-132 Close.  Closing a closed sql database succeeds; one whose
    Close fails is closed nevertheless. *)
Definition close_db (fm : bool) (order : list string) (fs : string -> cfault) (D : rdb) (L : gset lock) : gset lock * rdb * rout unit :=
  if rd_sql D && fm then (L, RDB false (rd_colls D) (rd_closed D), RErr XFault)
  else
    let '(L1, m, r) := close_colls order fs (rd_colls D) L in
    (L1, RDB false m (match r with ROk _ => true | _ => rd_closed D end), r).

(** A process: the locks it holds, the databases that Open returned, and on disk
    the rows of the table of collections. *)
Record world := World { w_rows : list string; w_locks : gset lock; w_dbs : list rdb }.
(** A process that has just started. *)
Definition boot (rows : list string) : world := World rows ∅ [].

(** What a database holds the locks of. *)
Definition held (D : rdb) (l : lock) : Prop :=
  exists c, rd_colls D !! l.1 = Some c /\ (if l.2 then rc_obj c else rc_vec c) = true.

(** What may happen: Open; Close of database [i], going through its collections in
    some order; CreateCollection; Close of a collection; the garbage collector closes
    files nobody can reach; the process ends and another starts. *)
Inductive wev :=
  | WOpen (fm : bool) (fs : string -> ofault)
  | WClose (i : nat) (fm : bool) (order : list string) (fs : string -> cfault)
  | WCreate (i : nat) (d : string) (fm : bool) (f : ofault)
  | WCloseColl (i : nat) (d : string) (f : cfault)
  | WGc (X : gset lock)
  | WRestart.

(** db/db.go:23-36 Open, 38-68 CreateCollection, 111-132 Close; collection.go:114-129.
    One event: the process after, and what the call returns.  A panic of Open is
    in a goroutine of bitcask's Keys and ends the process. *)
Definition wstep (w : world) (e : wev) : world * rout unit :=
  match e with
  | WOpen fm fs =>
      if fm then (w, RErr XFault)
      else
        let '(L, r) := open_rows (w_rows w) fs (w_locks w) ∅ in
        match r with
        | ROk m => (World (w_rows w) L (w_dbs w ++ [RDB true m false]), ROk tt)
        | RErr e => (World (w_rows w) L (w_dbs w), RErr e)
        | RPan => (boot (w_rows w), RPan)
        end
  | WClose i fm order fs =>
      match w_dbs w !! i with
      | None => (w, RErr XNone)
      | Some D =>
          let '(L, D1, r) := close_db fm order fs D (w_locks w) in
          (World (w_rows w) L (<[i := D1]> (w_dbs w)), r)
      end
  | WCreate i d fm f =>
      match w_dbs w !! i with
      | None => (w, RErr XNone)
      | Some D =>
          if rd_closed D then (w, RErr XDBClosed)
          else if decide (d ∈ dom (rd_colls D)) then (w, RErr XExists)
          else if negb (rd_sql D) then (w, RErr XSQLClosed)
          else if fm then (w, RErr XFault)
          else if decide (d ∈ w_rows w) then (w, RErr XExists)
          else
            let '(L, r) := open_coll d f (w_locks w) in
            match r with
            | ROk c => (World (w_rows w ++ [d]) L (<[i := RDB (rd_sql D) (<[d := c]> (rd_colls D)) (rd_closed D)]> (w_dbs w)), ROk tt)
            | RErr e => (World (w_rows w ++ [d]) L (w_dbs w), RErr e)
            | RPan => (boot (w_rows w ++ [d]), RPan)
            end
      end
  | WCloseColl i d f =>
      match w_dbs w !! i with
      | None => (w, RErr XNone)
      | Some D =>
          match rd_colls D !! d with
          | None => (w, RErr XNone)
          | Some c =>
              let '(L, c1, r) := close_coll d f c (w_locks w) in
              (World (w_rows w) L (<[i := RDB (rd_sql D) (<[d := c1]> (rd_colls D)) (rd_closed D)]> (w_dbs w)), r)
          end
      end
  | WGc X => (World (w_rows w) (w_locks w ∖ X) (w_dbs w), ROk tt)
  | WRestart => (boot (w_rows w), ROk tt)
  end.

(** Which events can happen: Close goes through all collections, and the garbage
    collector spares what can be reached. *)
Definition can (w : world) (e : wev) : Prop :=
  match e with
  | WClose i _ order _ => forall D, w_dbs w !! i = Some D -> order ≡ₚ (map_to_list (rd_colls D)).*1
  | WGc X => forall D l, D ∈ w_dbs w -> held D l -> l ∉ X
  | _ => True
  end.

(** Runs, with what the calls returned. *)
Inductive wrun : world -> list (wev * rout unit) -> world -> Prop :=
  | WrNil w : wrun w [] w
  | WrCons w e w1 r tr w2 : can w e -> wstep w e = (w1, r) -> wrun w1 tr w2 -> wrun w ((e, r) :: tr) w2.
