(** The random level of a vertex: db/core/index/hnsw/{hnsw,utils,vertex,insert}.go.
    float64 is the standard library's [SpecFloat] with 53 bits.  math.Log is an
    argument [log]; what is assumed of it is [LevelReal.log_ok]. *)
From Verif Require Import GoBase FloatModel HeapModel ProgModel StateModel WalModel HnswModel.
From Coq Require Import SpecFloat.
Open Scope nat_scope.

Definition f64 := spec_float.
(** float64(z) for an int *)
Definition f64_of_int (z : Z) : f64 := binary_normalize 53 1024 z 0 false.
Definition f64_one : f64 := f64_of_int 1.

(** math/rand (Go 1.19) Float64: float64(Int63()) / (1 << 63), drawn again if
    that is 1.  [k] is the value of Int63, below 2^63; None = drawn again. *)
Definition draw (k : N) : option f64 :=
  let f := SFdiv 53 1024 (f64_of_int (Z.of_N k)) (f64_of_int (2 ^ 63)) in
  if SFeqb f f64_one then None else Some f.

(** math.Floor of a finite float64, as an integer *)
Definition f64_floor (x : f64) : Z :=
  match x with
  | S754_finite s m e =>
      if (0 <=? e)%Z then (cond_Zopp s (Zpos m) * 2 ^ e)%Z else (cond_Zopp s (Zpos m) / 2 ^ (- e))%Z
  | _ => 0%Z
  end.
(** int64(math.Floor(x)).  If the value does not fit, the language leaves the
    result to the machine: [bad] (amd64 gives -2^63, arm64 2^63-1 for +Inf). *)
Definition f64_to_int64 (bad : Z) (x : f64) : Z :=
  match x with
  | S754_zero _ | S754_finite _ _ _ =>
      let z := f64_floor x in
      if ((- 2 ^ 63 <=? z) && (z <? 2 ^ 63))%Z then z else bad
  | _ => bad
  end.
(** int64 addition wraps *)
Definition wrap64 (z : Z) : Z := ((z + 2 ^ 63) mod 2 ^ 64 - 2 ^ 63)%Z.

(** make([][]uint64, n): 24 bytes for each of n slices; more than 2^48 bytes
    cannot be asked for on amd64 *)
Definition make_limit : Z := (2 ^ 48 / 24)%Z.

Section level.
  Context (log : f64 -> f64) (bad : Z).

  (** hnsw.go:49 h.mL = 1 / math.Log(float64(h.m)) *)
  Definition level_scale (m : Z) : f64 := SFdiv 53 1024 f64_one (log (f64_of_int m)).

  (** utils.go:16-18 calculateLevelForVertex, for a draw [r] *)
  Definition level_for_vertex (m : Z) (r : f64) : Z :=
    f64_to_int64 bad (SFmul 53 1024 (SFopp (log r)) (level_scale m)).

  (** insert.go:39-40 and vertex.go:14-22 Init(vertexLayer+1): make panics if
      its length is negative or too large, connections[0] if it is 0. *)
  Definition choose_level (m : Z) (r : f64) : out nat :=
    let n := wrap64 (level_for_vertex m r + 1) in
    if (n <? 0)%Z || (make_limit <? n)%Z then Pan PMake
    else if (n =? 0)%Z then Pan PIndex
    else Val (Z.to_nat (n - 1)).

  (** insert.go:8-127 Insert with the level drawn at line 39, not given.  [m] is
      h.m; everything after Init is as in [hnsw_insert]. *)
  Definition insert_drawn (P : hparams) (tid fuel : nat) (m : Z) (r : f64) (vec : fvec) (id : N) : hprog unit :=
    first ← once_insert id vec;
    if (first : bool) then mret tt
    else
      level ← lift (choose_level m r);
      wal_write (enc_add_vertex id level);;
      add_node id level vec;;
      '(epid, epv, cur) ← read_entry;
      d ← lift (dist P (v_vec epv) vec);
      e ← descend P tid fuel vec cur level (Elem epid d);
      construct P tid fuel id vec (Nat.min cur level) [e];;
      raise_entry id level cur.
End level.
