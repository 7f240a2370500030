(** The database object: configuration validation (entities/collection,
    entities/index), metadata rows (db/metadata), db/db.go and the REST
    handlers (api/handlers/collection.go). *)
From Verif Require Import GoBase FloatModel ProgModel StateModel WalModel HnswModel StoreModel CollModel.
From Coq Require Import SpecFloat.
Open Scope nat_scope.

(** entities/index/models.go:10-25 HnswParams as decoded from JSON *)
Record raw := Raw {
  r_m : Z; r_mmax : Z; r_efc : Z; r_ef : Z; r_heur : bool; r_dist : string
}.

(** What an IndexParams value is after json.Marshal, seen by json.Unmarshal
    into HnswParams: not a JSON object at all, an object with fields of the
    wrong type, or a value. *)
Inductive iparams := IPNotObject | IPIllTyped | IPOk (r : raw).

(** entities/collection/models.go:9-31 Collection *)
Record config := Config {
  cf_name : string; cf_index : string; cf_embedder : string; cf_data : string;
  cf_params : iparams; cf_embcfg : jval; cf_maps : list string
}.

(** entities/distance/models.go:3-6 *)
Definition dist_of_name (s : string) : option dist_kind :=
  if String.eqb s "dot_product" then Some DotProduct
  else if String.eqb s "euclidean_distance" then Some Euclidean
  else None.

(** entities/index/validator.go:9-46 ValidateHnswParams *)
Definition validate_hnsw (p : iparams) : out unit :=
  match p with
  | IPNotObject | IPIllTyped => Err EParamJSON
  | IPOk r =>
      if (r_m r <=? 0)%Z then Err EParamM
      else if (r_mmax r <=? 0)%Z then Err EParamMMax
      else if (r_ef r <=? 0)%Z then Err EParamEf
      else if (r_efc r <=? 0)%Z then Err EParamEfC
      else match dist_of_name (r_dist r) with Some _ => Val tt | None => Err EParamDist end
  end.

(** entities/collection/validator.go:10-44 Validate *)
Definition validate (c : config) : out unit :=
  if String.eqb (cf_name c) "" then Err ENameEmpty
  else
    (if String.eqb (cf_index c) "hnsw" then validate_hnsw (cf_params c)
     else if String.eqb (cf_index c) "disk_ann" then Val tt
     else Err EIndexType);;
    if String.eqb (cf_embedder c) "" || String.eqb (cf_embedder c) "text2vec-huggingface"
       || String.eqb (cf_embedder c) "fake_embedder"
    then if String.eqb (cf_data c) "text" then Val tt else Err EDataType
    else Err EEmbedderType.

(** hnsw.go:36-62: parameters of the running index.  Only called on validated
    configurations; an unknown distance name would leave distFunc nil. *)
Definition hparams_of (r : raw) : hparams :=
  HParams (Z.to_nat (r_m r)) (Z.to_nat (r_mmax r)) (Z.to_nat (r_efc r)) (Z.to_nat (r_ef r))
    (r_heur r) (default Euclidean (dist_of_name (r_dist r))).

(** An integer written to JSON, read into interface{} (a float64) and written
    again: rounded to 53 bits; the int64 field is left 0 if it overflows. *)
Definition sf_to_Z (x : spec_float) : Z :=
  match x with
  | S754_finite s m e =>
      cond_Zopp s (if (0 <=? e)%Z then Zpos m * 2 ^ e else Zpos m / 2 ^ (- e))%Z
  | _ => 0%Z
  end.
Definition f64_int (z : Z) : Z :=
  let z' := sf_to_Z (binary_normalize 53 1024 z 0 false) in
  if (z' <? 2 ^ 63)%Z then z' else 0%Z.
Definition raw_stored (r : raw) : raw :=
  Raw (f64_int (r_m r)) (f64_int (r_mmax r)) (f64_int (r_efc r)) (f64_int (r_ef r))
    (r_heur r) (r_dist r).
Definition params_stored (p : iparams) : iparams :=
  match p with IPOk r => IPOk (raw_stored r) | _ => p end.

(** db/metadata/schema/collection.go:12-22: one row per collection *)
Record row := Row { row_id : nat; row_cfg : config }.

(** The data directory: a sub-directory with the files of a collection, or a
    regular file. *)
Inductive fnode := FDir (d : disk) | FFile.

(** A *Collection a caller may hold. *)
Record handle := Handle { hd_cfg : config; hd_st : st }.

(** db/db.go:13-20 DB plus what is on disk.  [files] describes directories of
    collections that are not open; the files of an open one are in its handle. *)
Record db := DB {
  db_rows : list row; db_next : nat; db_files : gmap string fnode;
  db_colls : gmap string nat; db_handles : list handle; db_closed : bool
}.

(** What survives on disk: rows and files. *)
Record ddisk := DDisk { dd_rows : list row; dd_next : nat; dd_files : gmap string fnode }.
(** db/metadata/meta_manager.go:20-26: metadata.db exists as soon as the
    database has been opened once. *)
Definition fresh_ddisk : ddisk := DDisk [] 1 {[ "metadata.db"%string := FFile ]}.

Section db.
  (** Environment: embedders by type and configuration, JSON, limits. *)
  Context (env_embed : string -> jval -> embedder) (J : json) (maxv : N) (workers fuel : nat).

  (** db/collection.go:63-90: parameters of a collection opened with [c] *)
  Definition cparams_of (c : config) : option cparams :=
    match cf_params c with
    | IPOk r =>
        Some (CParams (hparams_of r) (cf_maps c)
          (if String.eqb (cf_embedder c) "" then None
           else Some (env_embed (cf_embedder c) (cf_embcfg c)))
          J maxv workers fuel)
    | _ => None
    end.

  (** db/collection.go:38-93 newCollection on a directory.  The index type is
      looked at after the stores and the counter have been opened. *)
  Definition new_collection (c : config) (f : option fnode) : out handle :=
    match f with
    | Some FFile => Err ENotDir
    | _ =>
        let d := match f with Some (FDir d) => d | _ => empty_disk end in
        _ ← open_counter (d_cfile d);
        if String.eqb (cf_index c) "hnsw" then s ← reopen d; Val (Handle c s)
        else Err EUnknownIndexType
    end.

  (** os.Mkdir below the data directory: path separators name a directory
      that does not exist (simplified), "." and ".." exist. *)
  Definition has_slash (s : string) : bool :=
    match String.index 0 "/" s with Some _ => true | None => false end.
  Definition mkdir (name : string) (fs : gmap string fnode) : out (gmap string fnode) :=
    if has_slash name then Err EIO
    else if String.eqb name "." || String.eqb name ".." then Err EExist
    else match fs !! name with
         | Some _ => Err EExist
         | None => Val (<[name := FDir empty_disk]> fs)
         end.

  (** json.Unmarshal into map[string]interface{} accepts objects and null *)
  Definition is_object (v : jval) : bool :=
    match v with JObj _ | JNull => true | _ => false end.

  (** db/metadata/meta_manager.go:40-89 CreateCollection: the row is saved
      before the directory is made; an existing directory is reported as an
      error although it was meant to be tolerated (line 88 returns err). *)
  Definition meta_create (c : config) (D : db) : db * out nat :=
    match cf_params c with
    | IPNotObject => (D, Err EJSON)
    | _ =>
        if negb (is_object (cf_embcfg c)) then (D, Err EJSON)
        else if existsb (fun r => String.eqb (cf_name (row_cfg r)) (cf_name c)) (db_rows D)
        then (D, Err EConstraint)
        else
          let rows := db_rows D ++
            [Row (db_next D) (Config (cf_name c) (cf_index c) (cf_embedder c) (cf_data c)
                                (params_stored (cf_params c)) (cf_embcfg c) (cf_maps c))] in
          match mkdir (cf_name c) (db_files D) with
          | Val fs => (DB rows (S (db_next D)) fs (db_colls D) (db_handles D) (db_closed D), Val (db_next D))
          | Err e => (DB rows (S (db_next D)) (db_files D) (db_colls D) (db_handles D) (db_closed D), Err e)
          | Pan p => (D, Pan p)
          end
    end.

  (** db/db.go:37-68 CreateCollection *)
  Definition create_collection (c : config) (D : db) : db * out nat :=
    if db_closed D then (D, Err EDatabaseClosed)
    else
      match validate c with
      | Err e => (D, Err (EValidation e))
      | Pan p => (D, Pan p)
      | Val _ =>
          match db_colls D !! cf_name c with
          | Some _ => (D, Err ECollectionExists)
          | None =>
              let '(D1, r) := meta_create c D in
              match r with
              | Err e => (D1, Err e)
              | Pan p => (D1, Pan p)
              | Val _ =>
                  match new_collection c (db_files D1 !! cf_name c) with
                  | Err e => (D1, Err e)
                  | Pan p => (D1, Pan p)
                  | Val h =>
                      (DB (db_rows D1) (db_next D1) (delete (cf_name c) (db_files D1))
                         (<[cf_name c := length (db_handles D1)]> (db_colls D1))
                         (db_handles D1 ++ [h]) (db_closed D1),
                       Val (length (db_handles D1)))
                  end
              end
          end
      end.

  (** db/db.go:71-91 DeleteCollection with meta_manager.go:91-103: the handle
      is dropped from the map but not closed *)
  Definition delete_collection (name : string) (D : db) : db * out unit :=
    if db_closed D then (D, Err EDatabaseClosed)
    else
      match db_colls D !! name with
      | None => (D, Err (EValidation ECollectionMissing))
      | Some _ =>
          if existsb (fun r => String.eqb (cf_name (row_cfg r)) name) (db_rows D) then
            (DB (List.filter (fun r => negb (String.eqb (cf_name (row_cfg r)) name)) (db_rows D))
               (db_next D) (delete name (db_files D)) (delete name (db_colls D))
               (db_handles D) (db_closed D), Val tt)
          else (D, Err EMetaMissing)
      end.

  (** db/db.go:94-108 GetCollection *)
  Definition get_collection (name : string) (D : db) : out nat :=
    if db_closed D then Err EDatabaseClosed
    else match db_colls D !! name with
         | None => Err (EValidation ECollectionMissing)
         | Some i => Val i
         end.

  (** db/collection.go:96-102 GetConfig *)
  Definition get_config (h : handle) : out config :=
    if closed (hd_st h) then Err ECollectionClosed else Val (hd_cfg h).

  (** db/db.go:111-132 Close: every handle of the map that is not closed yet is
      closed; ent's Close may be repeated *)
  Definition close_handle (h : handle) : handle :=
    Handle (hd_cfg h) (set_closed true (hd_st h)).
  Definition db_close (D : db) : db * out unit :=
    (DB (db_rows D) (db_next D) (db_files D) (db_colls D)
       (imap (fun i h => if bool_decide (i ∈ (map_to_list (db_colls D)).*2) then close_handle h else h)
          (db_handles D)) true, Val tt).

  (** The data directory once the process has ended, gracefully or not: the
      files of the collections of the map are written where they belong. *)
  Definition db_disk (D : db) : ddisk :=
    DDisk (db_rows D) (db_next D)
      (map_fold (fun name i fs =>
         match db_handles D !! i with
         | Some h => <[name := FDir (disk_of (hd_st h))]> fs
         | None => fs
         end) (db_files D) (db_colls D)).

  (** db/db.go:23-34 Open and 135-172 init: Mappings are not copied from the
      rows (lines 155-162) *)
  Definition row_config (r : row) : config :=
    let c := row_cfg r in
    Config (cf_name c) (cf_index c) (cf_embedder c) (cf_data c) (cf_params c) (cf_embcfg c) [].
  Fixpoint open_rows (rows : list row) (D : db) : out db :=
    match rows with
    | [] => Val D
    | r :: rest =>
        let c := row_config r in
        h ← new_collection c (db_files D !! cf_name c);
        open_rows rest
          (DB (db_rows D) (db_next D) (delete (cf_name c) (db_files D))
             (<[cf_name c := length (db_handles D)]> (db_colls D)) (db_handles D ++ [h]) false)
    end.
  Definition db_open (d : ddisk) : out db :=
    open_rows (dd_rows d) (DB (dd_rows d) (dd_next d) (dd_files d) ∅ [] false).

  (** Running one collection call on a handle to its end. *)
  Definition on_handle {A} (i : nat) (p : cparams -> prog st A) (D : db) : option (db * out A) :=
    h ← db_handles D !! i;
    C ← cparams_of (hd_cfg h);
    '(s', r) ← exec (p C) (hd_st h);
    Some (DB (db_rows D) (db_next D) (db_files D) (db_colls D)
            (<[i := Handle (hd_cfg h) s']> (db_handles D)) (db_closed D), r).

  (** api/handlers: a response is a status code and the payload *)
  Inductive payload := PConfig (c : config) | PCreated (name : string) | PMsg | PError (e : err_t).
  Definition is_validation (e : err_t) : bool := match e with EValidation _ => true | _ => false end.
  Definition err_response (e : err_t) : N * payload :=
    (if is_validation e then 400%N else 500%N, PError e).

  (** api/handlers/collection.go:25-53 getCollection: Mappings not copied *)
  Definition rest_get (name : string) (D : db) : option (N * payload) :=
    match get_collection name D with
    | Err e => Some (err_response e)
    | Pan _ => None
    | Val i =>
        h ← db_handles D !! i;
        match get_config h with
        | Err e => Some (500%N, PError e)
        | Pan _ => None
        | Val c =>
            Some (200%N, PConfig (Config (cf_name c) (cf_index c) (cf_embedder c) (cf_data c)
                                    (cf_params c) (cf_embcfg c) []))
        end
    end.

  (** api/handlers/collection.go:56-80 addCollection *)
  Definition rest_add (c : config) (D : db) : db * option (N * payload) :=
    let '(D', r) := create_collection c D in
    (D', match r with
         | Val _ => Some (201%N, PCreated (cf_name c))
         | Err e => Some (err_response e)
         | Pan _ => None
         end).

  (** api/handlers/collection.go:83-97 deleteCollection *)
  Definition rest_delete (name : string) (D : db) : db * option (N * payload) :=
    let '(D', r) := delete_collection name D in
    (D', match r with
         | Val _ => Some (200%N, PMsg)
         | Err e => Some (err_response e)
         | Pan _ => None
         end).
End db.
