(** Properties of the distance functions: C30, C31. *)
From Verif Require Import GoBase FloatModel ProofBase CodecSpec FloatProofs.
From Coq Require Import SpecFloat.
Open Scope nat_scope.

(** ** C30 Euclidean distance is a sane distance *)

(** Specification of the value: the float32 square root of the left-to-right
    float32 sum of the squared component differences. *)
Definition sum_sq (v1 v2 : fvec) : fl :=
  foldl (fun acc p => fadd acc (fmul (fsub (f32_val p.1) (f32_val p.2)) (fsub (f32_val p.1) (f32_val p.2))))
        (S754_zero false) (zip v1 v2).

Lemma f32_finite_val b : f32_finite b -> finite (f32_val b).
Proof.
  unfold f32_finite, f32_val. intros H.
  destruct (_ =? 0)%N.
  - by destruct (b mod 2 ^ 23)%N.
  - rewrite (proj2 (N.eqb_neq _ _)) by done. by destruct (b mod 2 ^ 23 + 2 ^ 23)%N eqn:E; [lia|].
Qed.
Lemma vfinite_val v : Forall f32_finite v -> vfinite v.
Proof. intros H. eapply Forall_impl; [exact H|]. exact f32_finite_val. Qed.

Theorem C30_euclidean_value :
  forall v1 v2, length v1 <= length v2 -> euclidean v1 v2 = Val (fsqrt32 (sum_sq v1 v2)).
Proof.
  intros v1 v2. unfold euclidean, sum_sq. change (S754_zero false) with fzero. generalize fzero.
  revert v2; induction v1 as [|a v1 IH]; intros v2 acc Hl; [done|].
  destruct v2 as [|b v2]; cbn [length] in Hl; [lia|]. cbn [euclid_loop zip zip_with foldl fst snd].
  apply IH. lia.
Qed.
Print Assumptions C30_euclidean_value.

Theorem C30_euclidean_symmetric :
  forall v1 v2, length v1 = length v2 -> euclidean v1 v2 = euclidean v2 v1.
Proof. exact euclidean_sym. Qed.
Print Assumptions C30_euclidean_symmetric.

Theorem C30_euclidean_never_negative :
  forall v1 v2 d, euclidean v1 v2 = Val d -> SFltb d (S754_zero false) = false /\ d <> S754_zero true.
Proof.
  intros v1 v2 d H. apply euclidean_nonneg in H. split; [by apply nonneg_not_lt_zero|].
  intros ->. by destruct H.
Qed.
Print Assumptions C30_euclidean_never_negative.

Theorem C30_euclidean_self_zero :
  forall v, Forall f32_finite v -> euclidean v v = Val (S754_zero false).
Proof. intros. by apply euclidean_self, vfinite_val. Qed.
Print Assumptions C30_euclidean_self_zero.

Theorem C30_euclidean_finite_no_nan :
  forall v1 v2 d, Forall f32_finite v1 -> Forall f32_finite v2 ->
    euclidean v1 v2 = Val d -> d <> S754_nan.
Proof.
  intros v1 v2 d H1 H2 E. apply euclidean_finite in E; [|by apply vfinite_val..]. intros ->. done.
Qed.
Print Assumptions C30_euclidean_finite_no_nan.

Theorem C30_euclidean_panics_exactly_when_shorter :
  forall v1 v2,
    (length v2 < length v1 -> euclidean v1 v2 = Pan PIndex) /\
    (length v1 <= length v2 -> exists d, euclidean v1 v2 = Val d).
Proof. intros. split; apply euclidean_total. Qed.
Print Assumptions C30_euclidean_panics_exactly_when_shorter.

(** (3,4) and (0,0): distance 5. *)
Example C30_case : euclidean [1077936128; 1082130432]%N [0;0]%N = Val (f32_val 1084227584%N)
  /\ Forall f32_finite [1077936128; 1082130432]%N.
Proof. split; [by vm_compute|]. repeat constructor; by vm_compute. Qed.
(** Overflow gives +infinity, not NaN; -0 and 0 are at distance 0. *)
Example C30_case_overflow : euclidean [2139095039]%N [4286578687]%N = Val (S754_infinity false)
  /\ euclidean [2147483648]%N [0]%N = Val (S754_zero false).
Proof. by vm_compute. Qed.

(** ** C31 Dot product accepts every dimension *)

(** Specification: the left-to-right float32 sum of the component products. *)
Definition sum_prod (v1 v2 : fvec) : fl :=
  foldl (fun acc p => fadd acc (fmul (f32_val p.1) (f32_val p.2))) (S754_zero false) (zip v1 v2).

Lemma dot_spec_sum v1 v2 : dot_spec v1 v2 fzero = sum_prod v1 v2.
Proof.
  unfold sum_prod. change (S754_zero false) with fzero. generalize fzero.
  revert v2; induction v1 as [|a v1 IH]; intros [|b v2] acc; try done. cbn [dot_spec zip zip_with foldl]. apply IH.
Qed.

(** The full claim is false: dimension 3 panics. *)
Theorem C31_dot_any_dimension_refuted :
  exists v1 v2, length v1 = length v2 /\ dot v1 v2 = Pan PIndex.
Proof. by exists [0;0;0]%N, [0;0;0]%N. Qed.
Print Assumptions C31_dot_any_dimension_refuted.

(** What holds: the claim for dimensions that are a multiple of 8. *)
Theorem C31_dot_value_partial :
  forall v1 v2, length v1 = length v2 -> length v1 mod 8 = 0 ->
    dot v1 v2 = Val (sum_prod v1 v2) /\ dot v1 v2 = dot v2 v1.
Proof.
  intros v1 v2 Hl Hm. rewrite (dot_mult8 v1 v2), (dot_mult8 v2 v1) by congruence.
  by rewrite <- dot_spec_sum, dot_spec_sym.
Qed.
Print Assumptions C31_dot_value_partial.

(** And every other dimension panics. *)
Theorem C31_dot_other_dimensions_panic :
  forall v1 v2, length v1 = length v2 -> length v1 mod 8 <> 0 -> dot v1 v2 = Pan PIndex.
Proof. exact dot_not8. Qed.
Print Assumptions C31_dot_other_dimensions_panic.

(** 1*2 + ... over 8 components: (1,1,1,1,1,1,1,1).(2,2,2,2,2,2,2,2) = 16 *)
Example C31_case : dot (replicate 8 1065353216%N) (replicate 8 1073741824%N) = Val (f32_val 1098907648%N).
Proof. by vm_compute. Qed.
