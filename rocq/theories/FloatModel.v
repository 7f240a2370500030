(** Go's float32 / float64 arithmetic, and the distance functions of
    db/core/index/distance.  A float32 value is its 32-bit pattern. *)
From Verif Require Import GoBase.
From Coq Require Import SpecFloat.

(** A stored float32: math.Float32bits of the value. *)
Definition f32 := N.
(** The result of float32 arithmetic (NaN payloads are not tracked in results,
    they are never stored). *)
Definition fl := spec_float.

(** IEEE-754 binary32 interpretation of a bit pattern
    (what math.Float32frombits yields). *)
Definition f32_val (b : f32) : fl :=
  let s := N.testbit b 31 in
  let e := ((b / 2 ^ 23) mod 2 ^ 8)%N in
  let m := (b mod 2 ^ 23)%N in
  if (e =? 0)%N then
    match m with
    | 0%N => S754_zero s
    | Npos p => S754_finite s p (-149)
    end
  else if (e =? 255)%N then
    (if (m =? 0)%N then S754_infinity s else S754_nan)
  else
    match (m + 2 ^ 23)%N with
    | Npos p => S754_finite s p (Z.of_N e - 150)
    | 0%N => S754_nan (* unreachable *)
    end.

(** float32 operators of Go on amd64: each rounded to binary32. *)
Definition fadd (x y : fl) : fl := SFadd 24 128 x y.
Definition fsub (x y : fl) : fl := SFsub 24 128 x y.
Definition fmul (x y : fl) : fl := SFmul 24 128 x y.
Definition fltb (x y : fl) : bool := SFltb x y.
Definition fleb (x y : fl) : bool := SFleb x y.

(** conversions float64(x), float32(x): round to nearest even. *)
Definition fconv (prec emax : Z) (x : fl) : fl :=
  match x with
  | S754_finite s m e =>
      binary_normalize prec emax (cond_Zopp s (Zpos m)) e s
  | _ => x
  end.

Definition fsqrt32 (x : fl) : fl :=
  fconv 24 128 (SFsqrt 53 1024 (fconv 53 1024 x)).

Definition fzero : fl := S754_zero false.

Definition fvec := list f32.

(** db/core/index/distance/rest.go:5-13 EuclideanDistance.
    The index loop is a recursion on v1; v2[i] out of range panics. *)
Fixpoint euclid_loop (v1 v2 : fvec) (sum : fl) : out fl :=
  match v1 with
  | [] => Val sum
  | a :: v1' =>
      match v2 with
      | [] => Pan PIndex
      | b :: v2' =>
          let d := fsub (f32_val a) (f32_val b) in
          euclid_loop v1' v2' (fadd sum (fmul d d))
      end
  end.

Definition euclidean (v1 v2 : fvec) : out fl :=
  sum ← euclid_loop v1 v2 fzero; Val (fsqrt32 sum).

(** v[i] on a float slice. *)
Definition vidx (v : fvec) (i : nat) : out f32 := or_pan PIndex (v !! i).

(** one statement  sum += v1[i] * v2[i]  of dot.go:11-18 *)
Definition dot_stmt (v1 v2 : fvec) (i : nat) (sum : fl) : out fl :=
  a ← vidx v1 i; b ← vidx v2 i; Val (fadd sum (fmul (f32_val a) (f32_val b))).

(** db/core/index/distance/dot.go:7-26: for i := 0; i < len(v1); i += 8 with
    eight unrolled statements.  [fuel] bounds the number of iterations. *)
Fixpoint dot_loop (fuel : nat) (v1 v2 : fvec) (i : nat) (sum : fl) : out fl :=
  match fuel with
  | O => Pan PFuel
  | S fuel' =>
      if decide (i < length v1) then
        s0 ← dot_stmt v1 v2 i sum;
        s1 ← dot_stmt v1 v2 (i + 1) s0;
        s2 ← dot_stmt v1 v2 (i + 2) s1;
        s3 ← dot_stmt v1 v2 (i + 3) s2;
        s4 ← dot_stmt v1 v2 (i + 4) s3;
        s5 ← dot_stmt v1 v2 (i + 5) s4;
        s6 ← dot_stmt v1 v2 (i + 6) s5;
        s7 ← dot_stmt v1 v2 (i + 7) s6;
        dot_loop fuel' v1 v2 (i + 8) s7
      else Val sum
  end.

Definition dot (v1 v2 : fvec) : out fl := dot_loop (S (length v1)) v1 v2 0 fzero.

(** entities/distance/models.go:3-6 *)
Inductive dist_kind := DotProduct | Euclidean.

(** db/core/index/hnsw/hnsw.go:51-56 and utils.go:8-10 *)
Definition dist_func (k : dist_kind) : fvec -> fvec -> out fl :=
  match k with DotProduct => dot | Euclidean => euclidean end.
