(** Crashes of the whole process: where CreateCollection and DeleteCollection
    may be cut short, what the data directory then holds, and the histories of
    a database in which the process may die at any moment.

    The files bitcask and sqlite keep are taken to be consistent after a crash
    (a row is there or not; config.json of a store is whole), as in StateModel
    and DBModel. *)
From stdpp Require Import relations.
From Verif Require Import GoBase FloatModel HeapModel ProgModel StateModel WalModel HnswModel StoreModel CollModel CallModel DBModel PropDB.
Open Scope nat_scope.

(** db/metadata/meta_manager.go:40-76: CreateCollection up to the saved row.
    [None]: an error was returned before anything was written. *)
Definition meta_save (c : config) (D : db) : option db :=
  match cf_params c with
  | IPNotObject => None
  | _ =>
      if negb (is_object (cf_embcfg c)) then None
      else if existsb (fun r => String.eqb (cf_name (row_cfg r)) (cf_name c)) (db_rows D) then None
      else Some (DB (db_rows D ++
             [Row (db_next D) (Config (cf_name c) (cf_index c) (cf_embedder c) (cf_data c)
                                 (params_stored (cf_params c)) (cf_embcfg c) (cf_maps c))])
             (S (db_next D)) (db_files D) (db_colls D) (db_handles D) (db_closed D))
  end.

(** db/db.go:37-68: how far a CreateCollection may have got when the process
    dies; the flag says whether the row has been saved.  Between the saved row
    and the end there are the new directory (meta_manager.go:83) and the empty
    files newCollection makes in it (collection.go:38-93), which are the same
    to a later Open. *)
Inductive create_cut (c : config) (D : db) : bool -> db -> Prop :=
| CreateNotYet : create_cut c D false D
| CreateRow D1 :
    db_closed D = false -> validate c = Val tt -> db_colls D !! cf_name c = None ->
    meta_save c D = Some D1 -> create_cut c D true D1
| CreateDir D1 :
    db_closed D = false -> validate c = Val tt -> db_colls D !! cf_name c = None ->
    is_Some (meta_save c D) -> (meta_create c D).1 = D1 -> create_cut c D true D1
| CreateEnd D1 r b :
    create_collection c D = (D1, r) -> (b = true <-> db_rows D1 <> db_rows D) -> create_cut c D b D1.

(** db/db.go:71-91 with meta_manager.go:91-103: how far a DeleteCollection may
    have got.  The row goes first; os.RemoveAll then unlinks file after file,
    so that any part [rest] of the directory may be left, or nothing. *)
Definition drop_row (name : string) (D : db) : list row :=
  List.filter (fun r => negb (String.eqb (cf_name (row_cfg r)) name)) (db_rows D).
Inductive delete_cut (name : string) (D : db) : bool -> db -> Prop :=
| DeleteNotYet : delete_cut name D false D
| DeleteRow rest :
    db_closed D = false -> is_Some (db_colls D !! name) ->
    existsb (fun r => String.eqb (cf_name (row_cfg r)) name) (db_rows D) = true ->
    delete_cut name D true
      (DB (drop_row name D) (db_next D)
         match rest with Some d => <[name := FDir d]> (db_files D) | None => delete name (db_files D) end
         (delete name (db_colls D)) (db_handles D) (db_closed D)).

(** meta_manager.go:102 with db.go:81-84: os.RemoveAll returns an error.  The
    row is gone, the entry of db.collections is not. *)
Definition delete_unremoved (name : string) (D : db) : db * out unit :=
  if db_closed D then (D, Err EDatabaseClosed)
  else
    match db_colls D !! name with
    | None => (D, Err (EValidation ECollectionMissing))
    | Some _ =>
        if existsb (fun r => String.eqb (cf_name (row_cfg r)) name) (db_rows D) then
          (DB (drop_row name D) (db_next D) (db_files D) (db_colls D) (db_handles D) (db_closed D), Err EIO)
        else (D, Err EMetaMissing)
    end.

(** A call on the database that was running when the process died. *)
Inductive dop := OpCreate (c : config) | OpDelete (name : string).

Section crash.
  Context (env_embed : string -> jval -> embedder) (J : json) (maxv : N) (workers fuel : nat).
  Notation params c := (cparams_of env_embed J maxv workers fuel c).

  (** db.mu (db.go:14) does not exclude the calls on collections and every
      collection has its own mu: when the process dies, each collection may be
      in the middle of a call of its own. *)
  Definition cut_handles (cuts : gmap nat (call * nat)) (hs hs' : list handle) : Prop :=
    length hs' = length hs /\
    forall i h, hs !! i = Some h -> exists h', hs' !! i = Some h' /\ hd_cfg h' = hd_cfg h /\
      match cuts !! i with
      | None => h' = h
      | Some (c, n) => exists C s1, params (hd_cfg h) = Some C /\ call_cut C (hd_st h) c s1 /\ hd_st h' = wal_flush_torn n s1
      end.
  Definition op_cut (op : option (dop * bool)) (D D' : db) : Prop :=
    match op with
    | None => D' = D
    | Some (OpCreate c, b) => create_cut c D b D'
    | Some (OpDelete n, b) => delete_cut n D b D'
    end.

  (** What may happen to a database: [KDo] is a complete event; [KCrash cuts
      op] is the death of the process in the middle of the calls [cuts] (by
      handle, with the number of buffered log records that reached the disk)
      and of the call [op], followed by Open. *)
  Inductive kev :=
  | KDo (e : dev)
  | KCrash (cuts : gmap nat (call * nat)) (op : option (dop * bool)).
  Inductive kstep (D : db) : kev -> db -> Prop :=
  | KStDo e D' : dstep env_embed J maxv workers fuel D e D' -> kstep D (KDo e) D'
  | KStCrash cuts op hs D1 D' :
      cut_handles cuts (db_handles D) hs ->
      op_cut op (DB (db_rows D) (db_next D) (db_files D) (db_colls D) hs (db_closed D)) D1 ->
      db_open (db_disk D1) = Val D' ->
      kstep D (KCrash cuts op) D'.
  Inductive khist (D : db) : list kev -> db -> Prop :=
  | KNil : khist D [] D
  | KSnoc l e D1 D2 : khist D l D1 -> kstep D1 e D2 -> khist D (l ++ [e]) D2.
End crash.
