(** Go-level basics shared by every model file: outcomes of a call, byte
    slices and encoding/binary's little-endian accessors.  No proofs here. *)
From Coq Require Export NArith ZArith Lia Bool List String.
From stdpp Require Export base list numbers option gmap fin_maps fin_sets sets.
Export ListNotations.
Open Scope list_scope.
Open Scope nat_scope.

(** Runtime panics of the Go program that the model distinguishes.
    [PFuel] is an artefact of the model (a loop bound was exhausted); every
    theorem about total behaviour excludes it. *)
Inductive panic_t :=
| PIndex   (* index or slice bounds out of range *)
| PNil     (* nil pointer dereference *)
| PMake    (* make: len/cap out of range *)
| PDiv     (* integer divide by zero *)
| PFuel.

(** Errors returned by the code, one constructor per distinguishable error.
    db/errors.go:5-13, entities/collection/validator.go:46-51,
    entities/index/validator.go:22-43, db/core/index/disk_ann/errors.go:5-8,
    db/metadata/errors.go:5-8; library errors are [EIO]-like constructors. *)
Inductive err_t :=
| ECollectionClosed | EDatabaseClosed | EUnknownIndexType
| ECollectionExists | EMissingVector
| EValidation (why : err_t)      (* fmt.Errorf("%w: %s", ErrValidationFailed, why) *)
| ECollectionMissing             (* db.ErrCollectionDoesntExist *)
| EMetaMissing                   (* metadata.ErrCollectionDoesntExist *)
| ENameEmpty | EIndexType | EEmbedderType | EDataType
| EParamM | EParamMMax | EParamEf | EParamEfC | EParamDist | EParamJSON
| EMappingLen (i : nat) | EMappingMissing (i : nat) (m : string)
| EEmbed                         (* embedder failed *)
| EJSON                          (* json.Marshal / Unmarshal failed *)
| EValueTooLarge                 (* bitcask.ErrValueTooLarge *)
| EOpcode (op : N)               (* unknown WAL opcode *)
| EUnexpectedEOF                 (* io.ErrUnexpectedEOF *)
| EOutOfOrder                    (* tidwall/wal ErrOutOfOrder *)
| EIO                            (* an operating system / disk failure *)
| EExist                         (* os.Mkdir: file exists *)
| ENotDir                        (* opening a path below a regular file *)
| EConstraint                    (* sqlite unique constraint *)
| EFileClosed                    (* os.ErrClosed *)
| EReadOnly | EDimensions        (* disk_ann *)
| ECanceled.                     (* context.Canceled *)

(** The outcome of a Go call. *)
Inductive out (A : Type) :=
| Val (a : A)
| Err (e : err_t)
| Pan (p : panic_t).
Arguments Val {A} _.
Arguments Err {A} _.
Arguments Pan {A} _.

Global Instance out_ret : MRet out := fun A a => Val a.
Global Instance out_bind : MBind out := fun A B k m =>
  match m with Val a => k a | Err e => Err e | Pan p => Pan p end.

(** Reading a possibly missing map entry / slice element. *)
Definition or_pan {A} (p : panic_t) (o : option A) : out A :=
  match o with Some a => Val a | None => Pan p end.

Definition bytes := list N.

(** Go's encoding/binary LittleEndian.PutUintK: the k bytes of x, least
    significant first. *)
Fixpoint le_put (k : nat) (x : N) : bytes :=
  match k with
  | O => []
  | S k' => (x mod 256)%N :: le_put k' (x / 256)%N
  end.

(** LittleEndian.UintK on a slice: needs at least k bytes, else it panics. *)
Fixpoint le_get (k : nat) (b : bytes) : option N :=
  match k with
  | O => Some 0%N
  | S k' =>
      match b with
      | [] => None
      | y :: b' =>
          match le_get k' b' with
          | Some r => Some (y + 256 * r)%N
          | None => None
          end
      end
  end.

Definition get_u32 (b : bytes) (off : nat) : out N :=
  if decide (off <= length b) then or_pan PIndex (le_get 4 (drop off b)) else Pan PIndex.
Definition get_u64 (b : bytes) (off : nat) : out N :=
  if decide (off <= length b) then or_pan PIndex (le_get 8 (drop off b)) else Pan PIndex.

(** Writing [data] into buffer [b] at [off]; a write past the end panics. *)
Definition put_at (b : bytes) (off : nat) (data : bytes) : out bytes :=
  if decide (off + length data <= length b)
  then Val (take off b ++ data ++ drop (off + length data) b)
  else Pan PIndex.

(** uint32(x), uint64(x) conversions. *)
Definition u32 (x : N) : N := (x mod 2 ^ 32)%N.
Definition u64 (x : N) : N := (x mod 2 ^ 64)%N.

Definition put_u32 (b : bytes) (off : nat) (x : N) : out bytes := put_at b off (le_put 4 x).
Definition put_u64 (b : bytes) (off : nat) (x : N) : out bytes := put_at b off (le_put 8 x).

(** make([]byte, n) *)
Definition zero_bytes (n : nat) : bytes := replicate n 0%N.

(** A slice expression b[lo:hi] on a full-capacity slice. *)
Definition slice (b : bytes) (lo hi : nat) : out bytes :=
  if decide (lo <= hi <= length b) then Val (take (hi - lo) (drop lo b)) else Pan PIndex.

(** bytes well-formedness *)
Definition byte_ok (x : N) : Prop := (x < 256)%N.
