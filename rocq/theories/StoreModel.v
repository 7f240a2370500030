(** Object codec (entities/objstore/object.go) and the two key-value stores
    (db/core/objstore/store.go). *)
From Verif Require Import GoBase FloatModel ProgModel StateModel.
Open Scope nat_scope.

(** encoding/json on map[string]interface{}: kept abstract, a parameter of the
    model.  [j_enc p = None]: json.Marshal fails; [j_dec b = None]:
    json.Unmarshal fails.  A nil map and an empty map are identified. *)
Record json := Json { j_enc : props -> option bytes; j_dec : bytes -> option props }.

(** The only fact about encoding/json used by theorems, always as an explicit
    hypothesis on the property map at hand. *)
Definition json_ok (J : json) (p : props) : Prop :=
  exists b, j_enc J p = Some b /\ j_dec J b = Some p.

(** object.go:23-43 SerializeProperties; [copy] never panics *)
Definition ser_props (J : json) (p : props) : out bytes :=
  match j_enc J p with
  | None => Err EJSON
  | Some js =>
      b ← put_u32 (zero_bytes (4 + length js)) 0 (u32 (N.of_nat (length js)));
      put_at b 4 js
  end.

(** object.go:45-62 DeserializeProperties *)
Definition de_props (J : json) (b : bytes) : out props :=
  n ← get_u32 b 0;
  js ← slice b 4 (4 + N.to_nat n);
  match j_dec J js with Some p => Val p | None => Err EJSON end.

(** object.go:70-73: the loop writing the float32 bit patterns *)
Fixpoint put_floats (b : bytes) (off : nat) (v : fvec) : out bytes :=
  match v with
  | [] => Val b
  | f :: v' => b ← put_u32 b off f; put_floats b (off + 4) v'
  end.

(** object.go:63-76 SerializeVector *)
Definition ser_vec (v : fvec) : out bytes :=
  b ← put_u32 (zero_bytes (4 + 4 * length v)) 0 (u32 (N.of_nat (length v)));
  put_floats b 4 v.

(** object.go:85-88: the loop reading the float32 bit patterns *)
Fixpoint get_floats (b : bytes) (off : nat) (n : nat) : out fvec :=
  match n with
  | O => Val []
  | S n' => f ← get_u32 b off; v ← get_floats b (off + 4) n'; Val (f :: v)
  end.

(** object.go:78-93 DeserializeVector *)
Definition de_vec (b : bytes) : out fvec :=
  n ← get_u32 b 0;
  get_floats b 4 (N.to_nat n).

(** len(o.Vector), a nil slice has length 0 *)
Definition vec_or_nil (o : object) : fvec := default [] (o_vec o).

(** bitcask v1.0.2 Put/Get/Delete/Len/Keys: a map from keys to values; Put
    rejects values longer than the configured maximum (65536 by default).
    Keys of this code are always 8 bytes (limit 64). *)
Definition bc_put (maxv : N) (k v : bytes) (m : gmap bytes bytes) : out (gmap bytes bytes) :=
  if (maxv <? N.of_nat (length v))%N then Err EValueTooLarge else Val (<[k := v]> m).

(** store.go:37-38 and others: binary.LittleEndian.PutUint64(idBytes, id) *)
Definition id_key (id : N) : bytes := le_put 8 id.

Section store.
  Context (J : json) (maxv : N).

  (** store.go:36-56 PutObject: serialize both parts, then two puts into two
      different stores (two steps: a crash or a failure can fall between); Put on
      a closed store fails *)
  Definition put_object (o : object) : prog st unit :=
    ob ← lift (ser_props J (o_props o));
    vb ← lift (ser_vec (vec_or_nil o));
    act (fun s =>
      match bc_put maxv (id_key (o_id o)) ob (objs s) with
      | Val m => if closed s then (s, Err EFileClosed) else (set_objs m s, Val tt)
      | Err e => (s, Err e)
      | Pan p => (s, Pan p)
      end);;
    act (fun s =>
      match bc_put maxv (id_key (o_id o)) vb (vecs s) with
      | Val m => if closed s then (s, Err EFileClosed) else (set_vecs m s, Val tt)
      | Err e => (s, Err e)
      | Pan p => (s, Pan p)
      end).

  (** store.go:58-94 GetObject.  On closed stores the key lookup still works
      (it is in memory) but reading the value fails. *)
  Definition get_object (s : st) (id : N) : out (option object) :=
    match objs s !! id_key id with
    | None => Val None
    | Some ob =>
        if closed s then Err EFileClosed
        else
          match vecs s !! id_key id with
          | None => Val None
          | Some vb =>
              p ← de_props J ob;
              v ← de_vec vb;
              Val (Some (Object id p (Some v)))
          end
    end.

  (** store.go:96-112 GetObjects, collection_get.go:19-33: missing ones are
      skipped *)
  Fixpoint get_objects (s : st) (ids : list N) : out (list object) :=
    match ids with
    | [] => Val []
    | id :: rest =>
        o ← get_object s id;
        os ← get_objects s rest;
        Val (match o with Some o => o :: os | None => os end)
    end.

  (** store.go:114-120 DeleteObject: the vector is kept.  Writing to a closed
      store fails. *)
  Definition delete_object (id : N) : prog st unit :=
    act (fun s =>
      if closed s then (s, Err EFileClosed)
      else (set_objs (delete (id_key id) (objs s)) s, Val tt)).

  (** store.go:122-142 GetVector *)
  Definition get_vector (m : gmap bytes bytes) (id : N) : out (option fvec) :=
    match m !! id_key id with
    | None => Val None
    | Some vb => v ← de_vec vb; Val (Some v)
    end.

  (** store.go:149-151 Size *)
  Definition store_size (s : st) : nat := size (objs s).
End store.
