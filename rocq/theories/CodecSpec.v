(** What the stored bytes must mean, stated without the encoders: the
    operations of the index log and their effect on the index. *)
From Verif Require Import GoBase FloatModel StateModel.
Open Scope nat_scope.

(** The five operations an index log can record. *)
Inductive wop :=
| WAddVertex (id : N) (level : nat)           (* a vertex on layers 0..level *)
| WSetEntry (id : N) (level : nat)            (* entry point and top layer *)
| WSetConns (id : N) (level : nat) (ns : list N)
| WAddConn (id : N) (level : nat) (n : N)
| WDelete (id : N).

(** Arguments that fit the record format. *)
Definition id_ok (id : N) : Prop := (id < 2 ^ 64)%N.
Definition level_ok (l : nat) : Prop := (N.of_nat l < 2 ^ 32)%N.
Definition wop_ok (o : wop) : Prop :=
  match o with
  | WAddVertex id l | WSetEntry id l => id_ok id /\ level_ok l
  | WSetConns id l ns => id_ok id /\ level_ok l /\ Forall id_ok ns /\ (N.of_nat (length ns) < 2 ^ 32)%N
  | WAddConn id l n => id_ok id /\ level_ok l /\ id_ok n
  | WDelete id => id_ok id
  end.

(** The effect of an operation on the index; a missing vertex or layer is a
    runtime panic of the replaying process. *)
Definition wop_apply (o : wop) (s : st) : out st :=
  match o with
  | WAddVertex id l => Val (set_nodes (<[id := Vertex (replicate (S l) []) [] None]> (nodes s)) s)
  | WSetEntry id l => Val (set_entry id l s)
  | WSetConns id l ns =>
      match nodes s !! id with
      | None => Pan PNil
      | Some v =>
          if decide (l < length (v_conns v))
          then Val (set_nodes (<[id := Vertex (<[l := ns]> (v_conns v)) (v_vec v) (v_lock v)]> (nodes s)) s)
          else Pan PIndex
      end
  | WAddConn id l n =>
      match nodes s !! id with
      | None => Pan PNil
      | Some v =>
          if decide (l < length (v_conns v))
          then Val (set_nodes (<[id := Vertex (<[l := (v_conns v !!! l) ++ [n]]> (v_conns v)) (v_vec v) (v_lock v)]> (nodes s)) s)
          else Pan PIndex
      end
  | WDelete id => Val (set_deleted ({[id]} ∪ deleted s) s)
  end.

Fixpoint wops_apply (os : list wop) (s : st) : out st :=
  match os with
  | [] => Val s
  | o :: os' => s' ← wop_apply o s; wops_apply os' s'
  end.

(** A 32-bit pattern denotes a finite float: the exponent field is not all ones. *)
Definition f32_finite (b : f32) : Prop := ((b / 2 ^ 23) mod 2 ^ 8 <> 255)%N.
(** Every component fits 32 bits and the dimension fits the length field. *)
Definition vec_ok (v : fvec) : Prop :=
  Forall (fun f => (f < 2 ^ 32)%N) v /\ (N.of_nat (length v) < 2 ^ 32)%N.
