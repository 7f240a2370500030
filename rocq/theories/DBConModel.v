(** Any number of goroutines using one database: db/db.go under db.mu, and the
    calls on its collections, which do not take db.mu.

    A goroutine [i] has a place in every collection (EarlyModel), so that
    Close, which closes the collections one after the other while it holds
    db.mu, is goroutine [i] calling Close on each of them.  db.mu is a
    sync.RWMutex and simplified as in LinModel. *)
From stdpp Require Import relations.
From Verif Require Import GoBase FloatModel HeapModel ProgModel StateModel WalModel HnswModel StoreModel CollModel CallModel LinModel EarlyModel DBModel.
Open Scope nat_scope.

(** The calls of db/db.go; db/collection.go:96-102 GetConfig of a collection,
    which takes no lock; and GET /v1/collection/{name}
    (api/handlers/collection.go:25-53), which is GetCollection and then
    GetConfig.  The other two handlers make one call each. *)
Inductive dcall :=
| DCreate (c : config)
| DDelete (n : string)
| DGet (n : string)
| DClose
| DConfig (h : nat)
| DRest (n : string).

(** What they hand back; a *Collection is the number of its handle. *)
Inductive dreply :=
| QColl (r : out nat)
| QUnit (r : out unit)
| QConf (r : out config)
| QRest (r : N * payload).

(** What a goroutine is doing. *)
Inductive gor :=
| GIdle                                  (* between calls *)
| GUse (h : nat)                         (* in a call on collection [h] *)
| GCall (c : dcall)                      (* has called, not done anything yet *)
| GLock (c : dcall)                      (* holds db.mu *)
| GLoop (todo : list nat)                (* holds db.mu: Close, with these collections left *)
| GShut (h : nat) (todo : list nat)      (* holds db.mu: Close, in the Close of [h] *)
| GEnd (c : dcall) (q : dreply)          (* holds db.mu, about to unlock *)
| GShare (c : dcall)                     (* shares db.mu *)
| GFound (c : dcall) (r : dreply + nat)  (* shares db.mu, about to unlock: the reply, or the collection whose GetConfig comes next *)
| GConf (c : dcall) (h : nat)            (* no lock: GetConfig of [h] *)
| GRet (c : dcall) (q : dreply).         (* about to return *)

Definition dholds_x (g : gor) : Prop := match g with GLock _ | GLoop _ | GShut _ _ | GEnd _ _ => True | _ => False end.
Definition dholds (g : gor) : Prop := match g with GShare _ | GFound _ _ => True | _ => dholds_x g end.

(** The database with its goroutines: for every handle the goroutines in the
    collection and the workers left behind, whether the sql database of the
    metadata is closed, and the goroutines. *)
Record cdb := CDB {
  cd_db : db; cd_side : list (list client * list group); cd_meta : bool; cd_gs : list gor
}.

(** What can be seen: calls and returns of goroutine [i]; calls and returns in
    collection [h], made by its users, or by Close of the database. *)
Inductive dvis :=
| DvCall (i : nat) (c : dcall)
| DvRet (i : nat) (c : dcall) (q : dreply)
| DvOn (h : nat) (v : vis)
| DvShut (h : nat) (v : vis).

(** The state of collection [h]. *)
Definition use (h : nat) (x : handle) (s : st) (D : db) : db :=
  DB (db_rows D) (db_next D) (db_files D) (db_colls D) (<[h := Handle (hd_cfg x) s]> (db_handles D)) (db_closed D).

(** db/db.go:48-56 with meta_manager.go:40-80 once the sql database is closed,
    which is after a Close that failed: every statement fails. *)
Definition create_shut (c : config) (D : db) : out nat :=
  if db_closed D then Err EDatabaseClosed
  else match validate c with
       | Err e => Err (EValidation e)
       | Pan p => Pan p
       | Val _ =>
           match db_colls D !! cf_name c with
           | Some _ => Err ECollectionExists
           | None =>
               match cf_params c with
               | IPNotObject => Err EJSON
               | _ => if negb (is_object (cf_embcfg c)) then Err EJSON else Err EIO
               end
           end
       end.
(** db/db.go:75-86 with meta_manager.go:91-95, likewise *)
Definition delete_shut (n : string) (D : db) : out unit :=
  if db_closed D then Err EDatabaseClosed
  else match db_colls D !! n with
       | None => Err (EValidation ECollectionMissing)
       | Some _ => Err EIO
       end.

(** db/db.go:37-91 between Lock and Unlock.  Everything it reads and writes is
    guarded by db.mu, so it is one step. *)
Definition do_create (c : config) (meta : bool) (D : db) : db * out nat :=
  if meta then (D, create_shut c D) else create_collection c D.
Definition do_delete (n : string) (meta : bool) (D : db) : db * out unit :=
  if meta then (D, delete_shut n D) else delete_collection n D.

(** A collection nobody uses yet. *)
Definition unused (n : nat) : list client * list group := (replicate n TIdle, []).

(** api/handlers/collection.go:35-52: the answer once GetConfig has answered *)
Definition conf_response (r : out config) : option (N * payload) :=
  match r with
  | Val c => Some (200%N, PConfig (Config (cf_name c) (cf_index c) (cf_embedder c) (cf_data c) (cf_params c) (cf_embcfg c) []))
  | Err e => Some (500%N, PError e)
  | Pan _ => None
  end.

Section dbcon.
  Context (env_embed : string -> jval -> embedder) (J : json) (maxv : N) (workers fuel : nat).
  Notation params c := (cparams_of env_embed J maxv workers fuel c).

  (** What a step in collection [h] means for the goroutines of the database.
      A user calls and returns; Close of the database calls Close on a
      collection that says it is not closed (db/db.go:120-124; IsClosed takes
      no lock, and what it said may be wrong by the time Close has c.mu) and
      gives up if that fails (124-126). *)
  Inductive on_ev (h : nat) (s : st) : list vis -> list gor -> list dvis -> list gor -> Prop :=
  | OnNone gs : on_ev h s [] gs [] gs
  | OnCall gs i c : gs !! i = Some GIdle -> on_ev h s [VCall i c] gs [DvOn h (VCall i c)] (<[i := GUse h]> gs)
  | OnRet gs i r : gs !! i = Some (GUse h) -> on_ev h s [VRet i r] gs [DvOn h (VRet i r)] (<[i := GIdle]> gs)
  | OnShut gs i todo : gs !! i = Some (GLoop (h :: todo)) -> closed s = false ->
      on_ev h s [VCall i CClose] gs [DvShut h (VCall i CClose)] (<[i := GShut h todo]> gs)
  | OnDone gs i todo : gs !! i = Some (GShut h todo) ->
      on_ev h s [VRet i (RUnit (Val tt))] gs [DvShut h (VRet i (RUnit (Val tt)))] (<[i := GLoop todo]> gs)
  | OnFail gs i todo e : gs !! i = Some (GShut h todo) ->
      on_ev h s [VRet i (RUnit (Err e))] gs [DvShut h (VRet i (RUnit (Err e)))] (<[i := GEnd DClose (QUnit (Err e))]> gs).

  (** What goroutine [i] does at the database itself. *)
  Inductive own_step (D : db) (meta : bool) (gs : list gor) (i : nat) : gor -> list dvis -> db -> bool -> gor -> Prop :=
  | OwnCall c : own_step D meta gs i GIdle [DvCall i c] D meta (GCall c)
  | OwnLock c : (match c with DCreate _ | DDelete _ | DClose => True | _ => False end) ->
      Forall (fun g => ~ dholds g) gs -> own_step D meta gs i (GCall c) [] D meta (GLock c)
  | OwnCreate c D' r : do_create c meta D = (D', r) ->
      own_step D meta gs i (GLock (DCreate c)) [] D' meta (GEnd (DCreate c) (QColl r))
  | OwnDelete n D' r : do_delete n meta D = (D', r) ->
      own_step D meta gs i (GLock (DDelete n)) [] D' meta (GEnd (DDelete n) (QUnit r))
  (* db/db.go:111-132: the order in which a map is gone through is not fixed *)
  | OwnClose todo : todo ≡ₚ (map_to_list (db_colls D)).*2 ->
      own_step D meta gs i (GLock DClose) [] D true (GLoop todo)
  | OwnSkip h x todo : db_handles D !! h = Some x -> closed (hd_st x) = true ->
      own_step D meta gs i (GLoop (h :: todo)) [] D meta (GLoop todo)
  | OwnClosed : own_step D meta gs i (GLoop [])
      [] (DB (db_rows D) (db_next D) (db_files D) (db_colls D) (db_handles D) true) meta (GEnd DClose (QUnit (Val tt)))
  | OwnUnlock c q : own_step D meta gs i (GEnd c q) [] D meta (GRet c q)
  (* db/db.go:94-108 *)
  | OwnRLock c : (match c with DGet _ | DRest _ => True | _ => False end) ->
      Forall (fun g => ~ dholds_x g) gs -> own_step D meta gs i (GCall c) [] D meta (GShare c)
  | OwnGet n : own_step D meta gs i (GShare (DGet n)) [] D meta (GFound (DGet n) (inl (QColl (get_collection n D))))
  | OwnRest n h : get_collection n D = Val h ->
      own_step D meta gs i (GShare (DRest n)) [] D meta (GFound (DRest n) (inr h))
  | OwnRestErr n e : get_collection n D = Err e ->
      own_step D meta gs i (GShare (DRest n)) [] D meta (GFound (DRest n) (inl (QRest (err_response e))))
  | OwnRUnlock c q : own_step D meta gs i (GFound c (inl q)) [] D meta (GRet c q)
  | OwnRUnlockGo c h : own_step D meta gs i (GFound c (inr h)) [] D meta (GConf c h)
  (* db/collection.go:96-102 *)
  | OwnConfig h : own_step D meta gs i (GCall (DConfig h)) [] D meta (GConf (DConfig h) h)
  | OwnConf h x : db_handles D !! h = Some x ->
      own_step D meta gs i (GConf (DConfig h) h) [] D meta (GRet (DConfig h) (QConf (get_config x)))
  | OwnConfRest n h x a : db_handles D !! h = Some x -> conf_response (get_config x) = Some a ->
      own_step D meta gs i (GConf (DRest n) h) [] D meta (GRet (DRest n) (QRest a))
  | OwnRet c q : own_step D meta gs i (GRet c q) [DvRet i c q] D meta GIdle.

  (** One step, of the database or in one of its collections. *)
  Inductive cd_step : cdb -> list dvis -> cdb -> Prop :=
  | CdOwn D sd meta gs i g vs D' meta' g' :
      gs !! i = Some g -> own_step D meta gs i g vs D' meta' g' ->
      cd_step (CDB D sd meta gs) vs
        (CDB D' (sd ++ replicate (length (db_handles D') - length sd) (unused (length gs))) meta' (<[i := g']> gs))
  | CdOn D sd meta gs h x C ts ws vs s' ts' ws' dvs gs' :
      db_handles D !! h = Some x -> sd !! h = Some (ts, ws) -> params (hd_cfg x) = Some C ->
      estep C (hd_st x, ts, ws) vs (s', ts', ws') -> on_ev h (hd_st x) vs gs dvs gs' ->
      cd_step (CDB D sd meta gs) dvs (CDB (use h x s' D) (<[h := (ts', ws')]> sd) meta gs').
  Inductive cd_run : cdb -> list dvis -> cdb -> Prop :=
  | CdNil m : cd_run m [] m
  | CdSnoc m v1 m1 v2 m2 : cd_run m v1 m1 -> cd_step m1 v2 m2 -> cd_run m (v1 ++ v2) m2.

  (** A database that [n] goroutines are going to use. *)
  Definition cd_start (D : db) (n : nat) : cdb :=
    CDB D (replicate (length (db_handles D)) (unused n)) false (replicate n GIdle).
End dbcon.
