(** Properties C91 to C93: the assembly dot product of distance/asm, which the
    line distance/dot.go:29 would put in the place of the loop. *)
From Verif Require Import GoBase FloatModel AsmModel CodecSpec FloatProofs FloatReal DistReal AsmProofs AsmReal AsmExact.
From Coq Require Import SpecFloat Reals Psatz.
From Flocq Require Import Core BinarySingleNaN.
Local Open Scope R_scope.

(** ** Specification *)
(** The [n] first components of [v] can be read at address [a]; nothing is said
    of any other address. *)
Definition readable (mem : Z -> option f32) (a : Z) (n : nat) (v : fvec) : Prop :=
  forall i w, (i < n)%nat -> v !! i = Some w -> mem (a + 4 * Z.of_nat i)%Z = Some w.
(** An address of user space, with [n] components behind it. *)
Definition user_address (a : Z) (n : nat) : Prop := (0 <= a /\ a + 4 * Z.of_nat n <= 2 ^ 47)%Z.
(** The call Dot(x, y) with [x] at [xb] and [y] at [yb] returns [r], and can do
    nothing else. *)
Definition call_returns (xb yb : Z) (n : nat) (mem : Z -> option f32) (m : mach) (r : fl) : Prop :=
  ends xb yb (Z.of_nat n) mem m (Returned r) /\ forall o, ends xb yb (Z.of_nat n) mem m o -> o = Returned r.
(** The memory that holds [x] and [y], and nothing else. *)
Definition only (xb : Z) (x : fvec) (yb : Z) (y : fvec) : Z -> option f32 := fun p =>
  if ((xb <=? p) && (p <? xb + 4 * Z.of_nat (length x)) && ((p - xb) mod 4 =? 0))%Z%bool then x !! Z.to_nat ((p - xb) / 4)
  else if ((yb <=? p) && (p <? yb + 4 * Z.of_nat (length y)) && ((p - yb) mod 4 =? 0))%Z%bool then y !! Z.to_nat ((p - yb) / 4)
  else None.
(** Registers at a call; the program must not depend on what is in them. *)
Definition some_registers : mach := Mach 0 7 8 9 3 (replicate 12 (replicate 8 S754_nan)) S754_nan.
Notation ur := (powerRZ 2 (-24)).

Lemma some_at_call : at_call some_registers.
Proof. split; [done|]. split; [done|]. repeat constructor. Qed.

Lemma eta_val : eta32 = bpow radix2 (-150).
Proof. unfold eta32. change (-149)%Z with (-150 + 1)%Z. rewrite bpow_plus. change (bpow radix2 1) with 2. lra. Qed.
Lemma real_val b s m e : f32_finite b -> f32_val b = S754_finite s m e -> f32_real b = F2R (Float radix2 (cond_Zopp s (Zpos m)) e).
Proof. intros H E. destruct (f32_val_real b H) as [_ <-]. by rewrite E. Qed.
Lemma real_1 : f32_real 1065353216%N = 1.
Proof. rewrite (real_val _ false 8388608 (-23)) by done. unfold F2R. simpl. lra. Qed.
Lemma real_3 : f32_real 1077936128%N = 3.
Proof. rewrite (real_val _ false 12582912 (-22)) by done. unfold F2R. simpl. lra. Qed.

Lemma ends_fun xb yb n mem m o1 o2 : ends xb yb n mem m o1 -> ends xb yb n mem m o2 -> o1 = o2.
Proof. intros H. revert o2. induction H as [m r H|m H|m m' o H _ IH]; intros o2; inversion 1; subst; try congruence. apply IH. congruence. Qed.
Lemma mrun_ends xb yb n mem k : forall m o, mrun xb yb n mem k m = o -> (forall m', o <> Running m') -> ends xb yb n mem m o.
Proof.
  induction k as [|k IH]; intros m o E Ho; cbn [mrun] in E; [by destruct (Ho m)|].
  destruct (mnext xb yb n mem m) as [m'|r|] eqn:En.
  - eapply EndStep; [exact En|]. by apply IH.
  - subst o. by apply EndRet.
  - subst o. by apply EndFault.
Qed.
Lemma run_returns xb yb n mem k m r : mrun xb yb (Z.of_nat n) mem k m = Returned r -> call_returns xb yb n mem m r.
Proof.
  intros E. assert (H : ends xb yb (Z.of_nat n) mem m (Returned r)) by (by eapply mrun_ends; [exact E|]).
  split; [done|]. intros o Ho. by eapply ends_fun.
Qed.
Lemma call_asm xb yb mem x y m : (length x <= length y)%nat -> user_address xb (length x) -> user_address yb (length x) ->
  readable mem xb (length x) x -> readable mem yb (length x) y -> at_call m ->
  call_returns xb yb (length x) mem m (asm_dot x (take (length x) y)).
Proof.
  intros Hl [Hx1 Hx2] [Hy1 Hy2] Hx Hy Hm.
  assert (H : ends xb yb (Z.of_nat (length x)) mem m (Returned (asm_dot x (take (length x) y)))).
  { apply dot_s_run; try done.
    - rewrite take_length. lia.
    - split; lia.
    - split; lia.
    - intros i w Hi. apply Hx; [|done]. by eapply lookup_lt_Some.
    - intros i w Hi. destruct (decide (i < length x)%nat) as [H|H].
      + apply Hy; [done|]. rewrite <- Hi. symmetry. by apply lookup_take.
      + exfalso. pose proof (eq_trans (eq_sym (lookup_take_ge y (length x) i ltac:(lia))) Hi) as E. discriminate. }
  split; [done|]. intros o Ho. by eapply ends_fun.
Qed.

(** ** C91 *)
(** Full statement: a call of asm.Dot reads nothing outside its two arguments,
    and what it returns depends on nothing but them.  It does not look at the
    length of the second argument (dot.s:9-11), so the statement is kept for
    second arguments that are not shorter than the first; see
    [C91_shorter_second_refuted] for the others. *)
Theorem C91_returns_partial :
  forall x y, (length x <= length y)%nat ->
  exists r, forall mem xb yb m,
    user_address xb (length x) -> user_address yb (length x) ->
    readable mem xb (length x) x -> readable mem yb (length x) y -> at_call m ->
    call_returns xb yb (length x) mem m r.
Proof. intros x y Hl. eexists. intros mem xb yb m Hx Hy Mx My Hm. by apply call_asm. Qed.
Print Assumptions C91_returns_partial.

(** Three components, of which the second vector has one more; memory that holds
    only the six that are needed. *)
Example C91_case :
  let x := [1065353216; 1073741824; 1077936128]%N in
  let y := [1077936128; 1073741824; 1065353216; 2143289344]%N in
  let mem := only 4096 x 8192 (take 3 y) in
  user_address 4096 3 /\ user_address 8192 3 /\ readable mem 4096 3 x /\ readable mem 8192 3 y /\ at_call some_registers /\
  mem (8192 + 12)%Z = None /\ call_returns 4096 8192 3 mem some_registers (S754_finite false 10485760 (-20)).
Proof.
  cbn zeta. split_and!; try done.
  - intros i w Hi E. do 3 (destruct i as [|i]; [rewrite <- E; reflexivity|]). lia.
  - intros i w Hi E. do 3 (destruct i as [|i]; [rewrite <- E; reflexivity|]). lia.
  - repeat constructor.
  - apply run_returns with (k := 60%nat). vm_compute. reflexivity.
Qed.

(** A second argument that is too short: the call faults, or answers with what
    lies behind it.  Dot of distance/dot.go panics. *)
Theorem C91_shorter_second_refuted :
  exists x y, (length y < length x)%nat /\
    (exists mem m, at_call m /\ readable mem 4096 (length x) x /\ readable mem 8192 (length y) y /\
      ends 4096 8192 (Z.of_nat (length x)) mem m Faulted) /\
    (exists mem1 mem2 m r1 r2, at_call m /\ readable mem1 4096 (length x) x /\ readable mem1 8192 (length y) y /\
      readable mem2 4096 (length x) x /\ readable mem2 8192 (length y) y /\
      call_returns 4096 8192 (length x) mem1 m r1 /\ call_returns 4096 8192 (length x) mem2 m r2 /\ r1 <> r2) /\
    exists p, dot x y = Pan p.
Proof.
  exists (replicate 8 1065353216%N), (replicate 7 1065353216%N).
  assert (R : forall y', take 7 y' = replicate 7 1065353216%N ->
    readable (only 4096 (replicate 8 1065353216%N) 8192 y') 4096 8 (replicate 8 1065353216%N) /\
    readable (only 4096 (replicate 8 1065353216%N) 8192 y') 8192 7 (replicate 7 1065353216%N)).
  { intros y' Hy. destruct y' as [|a [|b [|c [|d [|e [|f [|g y']]]]]]]; try done. cbn in Hy. injection Hy as -> -> -> -> -> -> ->. split.
    - intros i w Hi E. do 8 (destruct i as [|i]; [rewrite <- E; reflexivity|]). lia.
    - intros i w Hi E. destruct i as [|[|[|[|[|[|[|i]]]]]]]; [..|lia]; rewrite <- E; unfold only; cbn [Z.of_nat length];
      (rewrite (proj2 (Z.ltb_ge _ (4096 + _))) by (cbn; lia)); rewrite andb_false_r; cbn [andb];
      (rewrite (proj2 (Z.leb_le 8192 _)) by (cbn; lia)); (rewrite (proj2 (Z.ltb_lt _ (8192 + _))) by lia); cbn [andb]; reflexivity. }
  split; [cbn; lia|]. split_and!.
  - exists (only 4096 (replicate 8 1065353216%N) 8192 (replicate 7 1065353216%N)), some_registers.
    destruct (R (replicate 7 1065353216%N) eq_refl) as [R1 R2]. do 3 (split; [by first [exact some_at_call|done]|]).
    eapply (mrun_ends _ _ _ _ 120); [vm_compute; reflexivity|done].
  - exists (only 4096 (replicate 8 1065353216%N) 8192 (replicate 8 1065353216%N)),
      (only 4096 (replicate 8 1065353216%N) 8192 (replicate 7 1065353216%N ++ [1073741824%N])), some_registers.
    destruct (R (replicate 8 1065353216%N) eq_refl) as [R1 R2]. destruct (R (replicate 7 1065353216%N ++ [1073741824%N]) eq_refl) as [R3 R4].
    do 2 eexists. do 5 (split; [by first [exact some_at_call|done]|]). split; [|split].
    + apply run_returns with (k := 120%nat). vm_compute. reflexivity.
    + apply run_returns with (k := 120%nat). vm_compute. reflexivity.
    + discriminate.
  - eexists. vm_compute. reflexivity.
Qed.
Print Assumptions C91_shorter_second_refuted.

(** ** C92 *)
(** For finite vectors of any one dimension up to 2^28 the call returns a finite
    number close to the exact inner product. *)
Theorem C92_asm_accuracy :
  forall n x y, length x = n -> length y = n -> Forall f32_finite x -> Forall f32_finite y ->
    (Z.of_nat n <= 2 ^ 28)%Z -> real_absdot x y <= powerRZ 2 124 ->
  exists r, (forall mem xb yb m,
      user_address xb n -> user_address yb n -> readable mem xb n x -> readable mem yb n y -> at_call m ->
      call_returns xb yb n mem m r) /\
    fin32 r /\
    Rabs (fval r - real_dot x y) <=
      ((1 + ur) ^ (n / 48 + 50) - 1) * real_absdot x y + INR n * (1 + ur) ^ (n / 48 + 50) * powerRZ 2 (-150).
Proof.
  intros n x y <- Hy Fx Fy Hn HA. exists (asm_dot x y). split.
  { intros mem xb yb m Hx Hyb Mx My Hm. pose proof (call_asm xb yb mem x y m ltac:(lia) Hx Hyb Mx My Hm) as H.
    rewrite <- Hy in H at 2. by rewrite firstn_all in H. }
  rewrite powerRZ_bpow in HA. destruct (asm_dot_near x y Fx Fy (eq_sym Hy) Hn HA) as (F & _ & H). split; [exact F|].
  rewrite <- u32_val, powerRZ_bpow, <- eta_val. exact H.
Qed.
Print Assumptions C92_asm_accuracy.

(** Fifty components: one block of 48 and two in the tail.  The hypotheses hold,
    and the answer is the exact one. *)
Example C92_case :
  let x := replicate 50 1077936128%N in let y := replicate 50 1065353216%N in
  Forall f32_finite x /\ Forall f32_finite y /\ real_absdot x y <= powerRZ 2 124 /\ real_dot x y = 150 /\
  exists r, call_returns 4096 8192 50 (only 4096 x 8192 y) some_registers r /\ fval r = 150.
Proof.
  cbn zeta. split; [by apply Forall_replicate|]. split; [by apply Forall_replicate|].
  assert (E : forall n, real_dot (replicate n 1077936128%N) (replicate n 1065353216%N) = INR n * 3 /\
    real_absdot (replicate n 1077936128%N) (replicate n 1065353216%N) = INR n * 3).
  { intros n. induction n as [|n [IH1 IH2]]; [simpl; lra|]. rewrite S_INR. cbn [replicate real_dot real_absdot].
    rewrite IH1, IH2, real_1, real_3. rewrite Rabs_pos_eq; lra. }
  destruct (E 50%nat) as [-> ->]. rewrite powerRZ_bpow.
  assert (H50 : INR 50 = 50) by (rewrite INR_IZR_INZ; reflexivity). rewrite H50.
  split. { apply Rle_trans with (bpow radix2 8); [change (bpow radix2 8) with 256; lra|by apply bpow_le]. }
  split; [lra|]. exists (S754_finite false 9830400 (-16)). split.
  - apply run_returns with (k := 80%nat). vm_compute. reflexivity.
  - unfold fval. cbn [SF2R]. unfold F2R. simpl. lra.
Qed.

(** ** C93 *)
(** Full statement: asm.Dot returns what Dot returns.  It does not: the products
    are added in another order and not rounded before, see
    [C93_same_result_refuted].  For dimensions that Dot supports the two differ
    by no more than their rounding errors. *)
Theorem C93_same_result_partial :
  forall n x y, length x = n -> length y = n -> (n mod 8 = 0)%nat -> Forall f32_finite x -> Forall f32_finite y ->
    INR n <= powerRZ 2 22 -> real_absdot x y <= powerRZ 2 124 ->
  exists d r, dot x y = Val d /\ fin32 d /\ fin32 r /\
    (forall mem xb yb m, user_address xb n -> user_address yb n -> readable mem xb n x -> readable mem yb n y -> at_call m ->
      call_returns xb yb n mem m r) /\
    Rabs (fval r - fval d) <=
      ((1 + ur) ^ (n + 1) - 1 + ((1 + ur) ^ (n / 48 + 50) - 1)) * real_absdot x y +
      INR n * ((1 + ur) ^ n + (1 + ur) ^ (n / 48 + 50)) * powerRZ 2 (-150).
Proof.
  intros n x y Hx Hy H8 Fx Fy Hn HA.
  destruct (C92_asm_accuracy n x y Hx Hy Fx Fy) as (r & Hr & Fr & Br); [|done|].
  { apply le_IZR. rewrite <- INR_IZR_INZ. eapply Rle_trans; [exact Hn|]. rewrite powerRZ_bpow. change (IZR (2 ^ 28)) with (bpow radix2 28). by apply bpow_le. }
  subst n. destruct (dot_bounds x y (eq_sym Hy) H8 Fx Fy Hn HA) as (d & Hd & Fd & Bd). rewrite u32_val in Bd.
  exists d, r. split; [done|]. split; [done|]. split; [done|]. split; [done|].
  replace (fval r - fval d) with ((fval r - real_dot x y) - (fval d - real_dot x y)) by ring.
  eapply Rle_trans; [apply Rabs_triang|]. rewrite Rabs_Ropp. lra.
Qed.
Print Assumptions C93_same_result_partial.

(** Vectors of integers (the case of most tests): the same result, to the bit,
    and the exact one, as long as the products add up to at most 2^24. *)
Theorem C93_integer_vectors :
  forall n x y, length x = n -> length y = n -> (n mod 8 = 0)%nat ->
    (forall a, a ∈ x ++ y -> f32_finite a /\ exists z, f32_real a = IZR z) -> real_absdot x y <= powerRZ 2 24 ->
  exists d, dot x y = Val d /\ fval d = real_dot x y /\
    forall mem xb yb m, user_address xb n -> user_address yb n -> readable mem xb n x -> readable mem yb n y -> at_call m ->
      call_returns xb yb n mem m d.
Proof.
  intros n x y <- Hy H8 HI HA. rewrite powerRZ_bpow in HA.
  assert (Fx : Forall f32_int x) by (apply Forall_forall; intros a Ha; apply HI, elem_of_app; by left).
  assert (Fy : Forall f32_int y) by (apply Forall_forall; intros a Ha; apply HI, elem_of_app; by right).
  pose proof (asm_dot_exact x y Fx Fy (eq_sym Hy) HA) as E1.
  assert (E2 : exactly (0 + real_dot x y) (dot_spec x y fzero)).
  { apply dot_spec_exact; [done|done|done|exact exactly_zero|]. rewrite Rabs_R0. lra. }
  rewrite Rplus_0_l in E2. exists (dot_spec x y fzero). split; [by apply dot_mult8|]. split; [by destruct E2 as (_ & ? & _)|].
  rewrite <- (exactly_unique _ _ _ E1 E2). intros mem xb yb m Hx Hyb Mx My Hm.
  pose proof (call_asm xb yb mem x y m ltac:(lia) Hx Hyb Mx My Hm) as H.
  rewrite <- Hy in H at 2. by rewrite firstn_all in H.
Qed.
Print Assumptions C93_integer_vectors.

Example C93_case :
  let x := replicate 56 1077936128%N in let y := replicate 56 1065353216%N in
  (56 mod 8 = 0)%nat /\ (forall a, a ∈ x ++ y -> f32_finite a /\ exists z, f32_real a = IZR z) /\
  exists d, dot x y = Val d /\ call_returns 4096 8192 56 (only 4096 x 8192 y) some_registers d /\ fval d = 168.
Proof.
  cbn zeta. split; [done|]. split.
  - intros a [H|H]%elem_of_app; apply elem_of_replicate_inv in H as ->.
    + split; [done|]. exists 3%Z. exact real_3.
    + split; [done|]. exists 1%Z. exact real_1.
  - exists (S754_finite false 11010048 (-16)). split; [vm_compute; reflexivity|]. split.
    + apply run_returns with (k := 140%nat). vm_compute. reflexivity.
    + unfold fval. cbn [SF2R]. unfold F2R. simpl. lra.
Qed.

(** Finite vectors of eight components, -(1 + 2^-11) + (1 + 2^-12)^2: Dot rounds
    the square first and returns 0, the assembly program returns 2^-24. *)
Theorem C93_same_result_refuted :
  exists x y d r, length x = 8%nat /\ length y = 8%nat /\ Forall f32_finite x /\ Forall f32_finite y /\
    dot x y = Val d /\ call_returns 4096 8192 8 (only 4096 x 8192 y) some_registers r /\
    fval d = 0 /\ fval r = powerRZ 2 (-24) /\ real_dot x y = powerRZ 2 (-24).
Proof.
  exists [1065353216; 1065355264; 0; 0; 0; 0; 0; 0]%N, [3212840960; 1065355264; 0; 0; 0; 0; 0; 0]%N, fzero, (S754_finite false 8388608 (-47)).
  split; [done|]. split; [done|]. split; [by repeat constructor|]. split; [by repeat constructor|].
  split; [vm_compute; reflexivity|]. split; [apply run_returns with (k := 120%nat); vm_compute; reflexivity|].
  split; [done|]. rewrite powerRZ_bpow. split; [unfold fval; cbn [SF2R]; unfold F2R; simpl; lra|].
  cbn [real_dot]. rewrite real_1. rewrite (real_val 3212840960%N true 8392704 (-23)) by done.
  rewrite (real_val 1065355264%N false 8390656 (-23)) by done.
  assert (Z0 : f32_real 0%N = 0). { destruct (f32_val_real 0%N) as [_ <-]; done. } rewrite Z0. unfold F2R. cbn -[Z.pow_pos]. change (Z.pow_pos 2 23) with 8388608%Z. change (Z.pow_pos 2 24) with 16777216%Z. change (- (8392704))%Z with (-8392704)%Z. lra.
Qed.
Print Assumptions C93_same_result_refuted.
