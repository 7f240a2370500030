(** Any number of goroutines calling the same collection: which parts of the
    calls of db/collection*.go run under c.mu, and which do not.

    c.mu is a sync.RWMutex.  Its state is who holds it: a goroutine [TX] holds
    it exclusively, goroutines [TR] share it.  Simplification: a waiting Lock
    does not keep new RLocks out (sync.RWMutex does), so there are more
    schedules here than in the code. *)
From stdpp Require Import relations.
From Verif Require Import GoBase FloatModel HeapModel ProgModel StateModel WalModel HnswModel StoreModel CollModel CallModel.
Open Scope nat_scope.

Section lin.
  Context (C : cparams).

  (** collection_delete.go:20-30, Delete once it holds c.mu *)
  Definition delete_rest (io : bool) (id : N) : prog st unit :=
    delete_object id;;
    hnsw_delete id;;
    flush io.

  (** What a call does between Lock and Unlock. *)
  Inductive xbody :=
  | XIns (p : prog st object)                                (* collection_insert.go:12-33 *)
  | XUnit (p : prog st unit)                                 (* collection_update.go:10-15, collection.go:118-128 *)
  | XDel (p : prog st unit)                                  (* collection_delete.go:20-30 *)
  | XBatch (two : bool) (io : bool) (ol : list (object * nat))           (* collection_insert.go:41, 99: not prepared yet *)
  | XWork (two : bool) (io : bool) (ts : list (prog st (list object)))   (* collection_insert.go:54-85, 116-134: the workers run *)
  | XEnd (r : reply).                                        (* about to return *)

  (** The body of a call that starts with c.mu.Lock (Delete does not). *)
  Definition xstart (c : call) : option xbody :=
    match c with
    | CInsert io level o => Some (XIns (insert C 0 io level o))
    | CBatch io ol => Some (XBatch false io ol)
    | CBatch2 io ol => Some (XBatch true io ol)
    | CUpdate o => Some (XUnit (update o))
    | CClose => Some (XUnit close)
    | _ => None
    end.

  Definition drop_chan (two : bool) (s : st) : st := if two then set_chan [] s else s.

  Inductive xstep : st -> xbody -> st -> xbody -> Prop :=
  | XSIns f s s' p' : f s = Some (s', p') -> xstep s (XIns (Step f)) s' (XIns p')
  | XSUnit f s s' p' : f s = Some (s', p') -> xstep s (XUnit (Step f)) s' (XUnit p')
  | XSDel f s s' p' : f s = Some (s', p') -> xstep s (XDel (Step f)) s' (XDel p')
  | XSRefused two io ol s r :
      batch_prepare C s (ol.*1) = r -> (forall os, r <> Val os) ->
      xstep s (XBatch two io ol) s (XEnd (RBatch (_ ← r; Val tt) []))
  | XSBatch io ol s os :
      batch_prepare C s (ol.*1) = Val os ->
      xstep s (XBatch false io ol) s (XWork false io (batch_threads C (zip os (ol.*2))))
  | XSBatch2 io ol s os :
      batch_prepare C s (ol.*1) = Val os ->
      xstep s (XBatch true io ol) (set_chan (zip os (ol.*2)) s) (XWork true io (batch2_threads C (zip os (ol.*2))))
  | XSWork two io ts s s' ts' : mstep (s, ts) (s', ts') -> xstep s (XWork two io ts) s' (XWork two io ts')
  | XSFlush two io rs s s' r :
      group_wait rs (Val tt) -> wal_flush io s = (s', r) ->
      xstep s (XWork two io (Done <$> rs)) (drop_chan two s') (XEnd (RBatch r rs))
  | XSFail two io rs s e :
      group_wait rs (Err e) -> xstep s (XWork two io (Done <$> rs)) (drop_chan two s) (XEnd (RBatch (Err e) rs)).

  (** The body has come to its end; the deferred Unlock follows, even after a
      panic. *)
  Definition xreply (b : xbody) : option reply :=
    match b with
    | XIns (Done r) => Some (RIns r)
    | XUnit (Done r) | XDel (Done r) => Some (RUnit r)
    | XEnd r => Some r
    | _ => None
    end.

  (** What a call does between RLock and RUnlock: collection_get.go:15-33 and
      41-76. *)
  Inductive rbody :=
  | YGet (p : prog st (list object))
  | YSearch (p : prog st (nat * list hit)).
  Definition rstart (c : call) : option rbody :=
    match c with
    | CGet ids => Some (YGet (get C ids))
    | CSearch o k => Some (YSearch (semantic_search C 0 o k))
    | _ => None
    end.
  Inductive ystep : st -> rbody -> st -> rbody -> Prop :=
  | YSGet f s s' p' : f s = Some (s', p') -> ystep s (YGet (Step f)) s' (YGet p')
  | YSSearch f s s' p' : f s = Some (s', p') -> ystep s (YSearch (Step f)) s' (YSearch p').
  Definition yreply (b : rbody) : option reply :=
    match b with
    | YGet (Done r) => Some (RGet r)
    | YSearch (Done r) => Some (RSearch r)
    | _ => None
    end.

  (** A goroutine that uses the collection. *)
  Inductive client :=
  | TIdle                                       (* between calls *)
  | TCall (c : call)                            (* has called, not done anything yet *)
  | TLook (io : bool) (id : N) (ob : bytes)     (* Delete between the two reads of store.go:62 and 71 *)
  | TWait (io : bool) (id : N)                  (* Delete found the object and wants c.mu *)
  | TX (c : call) (b : xbody)                   (* holds c.mu *)
  | TR (c : call) (b : rbody)                   (* shares c.mu *)
  | TRet (r : reply).                           (* about to return *)

  Definition holds_x (t : client) : Prop := match t with TX _ _ => True | _ => False end.
  Definition holds (t : client) : Prop := match t with TX _ _ | TR _ _ => True | _ => False end.

  (** What a caller sees: calls and returns of goroutine [i]. *)
  Inductive vis := VCall (i : nat) (c : call) | VRet (i : nat) (r : reply).

  Inductive cl_step : st -> list client -> nat -> client -> list vis -> st -> client -> Prop :=
  | ClCall s ts i c : cl_step s ts i TIdle [VCall i c] s (TCall c)
  | ClLock s ts i c b : xstart c = Some b -> Forall (fun t => ~ holds t) ts -> cl_step s ts i (TCall c) [] s (TX c b)
  | ClX s ts i c b s' b' : xstep s b s' b' -> cl_step s ts i (TX c b) [] s' (TX c b')
  | ClUnlock s ts i c b r : xreply b = Some r -> cl_step s ts i (TX c b) [] s (TRet r)
  | ClRLock s ts i c b : rstart c = Some b -> Forall (fun t => ~ holds_x t) ts -> cl_step s ts i (TCall c) [] s (TR c b)
  | ClR s ts i c b s' b' : ystep s b s' b' -> cl_step s ts i (TR c b) [] s' (TR c b')
  | ClRUnlock s ts i c b r : yreply b = Some r -> cl_step s ts i (TR c b) [] s (TRet r)
  (* collection.go:105-111: no lock *)
  | ClSize s ts i r : exec get_size s = Some (s, r) -> cl_step s ts i (TCall CSize) [] s (TRet (RSize r))
  (* collection_delete.go:7 GetObject, no lock: store.go:62 *)
  | ClLook s ts i io id ob :
      objs s !! id_key id = Some ob -> closed s = false -> cl_step s ts i (TCall (CDelete io id)) [] s (TLook io id ob)
  | ClLookNone s ts i io id :
      objs s !! id_key id = None -> cl_step s ts i (TCall (CDelete io id)) [] s (TRet (RUnit (Val tt)))
  | ClLookClosed s ts i io id ob :
      objs s !! id_key id = Some ob -> closed s = true -> cl_step s ts i (TCall (CDelete io id)) [] s (TRet (RUnit (Err EFileClosed)))
  (* store.go:71-93 *)
  | ClLook2None s ts i io id ob :
      vecs s !! id_key id = None -> cl_step s ts i (TLook io id ob) [] s (TRet (RUnit (Val tt)))
  | ClLook2Closed s ts i io id ob vb :
      vecs s !! id_key id = Some vb -> closed s = true -> cl_step s ts i (TLook io id ob) [] s (TRet (RUnit (Err EFileClosed)))
  | ClLook2Err s ts i io id ob vb r :
      vecs s !! id_key id = Some vb -> closed s = false ->
      (p ← de_props (cp_json C) ob; v ← de_vec vb; Val (Some (Object id p (Some v)))) = r -> (forall o, r <> Val o) ->
      cl_step s ts i (TLook io id ob) [] s (TRet (RUnit (_ ← r; Val tt)))
  | ClLook2 s ts i io id ob vb p v :
      vecs s !! id_key id = Some vb -> closed s = false -> de_props (cp_json C) ob = Val p -> de_vec vb = Val v ->
      cl_step s ts i (TLook io id ob) [] s (TWait io id)
  | ClLockDel s ts i io id :
      Forall (fun t => ~ holds t) ts -> cl_step s ts i (TWait io id) [] s (TX (CDelete io id) (XDel (delete_rest io id)))
  | ClRet s ts i r : cl_step s ts i (TRet r) [VRet i r] s TIdle.

  (** One step of one of the goroutines, and any number of steps. *)
  Inductive con_step : st * list client -> list vis -> st * list client -> Prop :=
  | ConStep s ts i t vs s' t' :
      ts !! i = Some t -> cl_step s ts i t vs s' t' -> con_step (s, ts) vs (s', <[i := t']> ts).
  Inductive con_run : st * list client -> list vis -> st * list client -> Prop :=
  | ConNil m : con_run m [] m
  | ConSnoc m vs1 m1 vs2 m2 : con_run m vs1 m1 -> con_step m1 vs2 m2 -> con_run m (vs1 ++ vs2) m2.
End lin.
