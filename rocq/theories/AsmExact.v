(** Vectors of small integers: both dot products are exact. *)
From Verif Require Import GoBase FloatModel AsmModel CodecSpec FloatProofs FloatReal DistReal AsmProofs AsmReal.
From Coq Require Import SpecFloat Reals Psatz.
From Flocq Require Import Core BinarySingleNaN.
Local Open Scope R_scope.

Lemma int_format z : (Z.abs z <= 2 ^ 24)%Z -> generic_format radix2 (SpecFloat.fexp 24 128) (IZR z).
Proof.
  intros H. change (SpecFloat.fexp 24 128) with (FLT_exp (-149) 24).
  destruct (Z.eq_dec (Z.abs z) (2 ^ 24)) as [E|E].
  - assert (Hb : generic_format radix2 (FLT_exp (-149) 24) (bpow radix2 24)) by (apply generic_format_FLT_bpow; [done|lia]).
    change (bpow radix2 24) with (IZR (2 ^ 24)) in Hb. destruct (Z.abs_eq_or_opp z) as [A|A].
    + by rewrite <- A, E.
    + replace z with (- (2 ^ 24))%Z by lia. rewrite opp_IZR. by apply generic_format_opp.
  - apply generic_format_FLT. exists (Float radix2 z 0); [|simpl; lia|simpl; lia]. unfold F2R. simpl. ring.
Qed.
Lemma int_rnd z : Rabs (IZR z) <= bpow radix2 24 -> rnd32 (IZR z) = IZR z /\ Rabs (rnd32 (IZR z)) < bpow radix2 128.
Proof.
  intros H. assert (E : rnd32 (IZR z) = IZR z).
  { unfold frnd. apply round_generic; [apply _|]. apply int_format. apply le_IZR. rewrite abs_IZR. exact H. }
  split; [done|]. rewrite E. eapply Rle_lt_trans; [exact H|]. by apply bpow_lt.
Qed.

(** [v] is the integer [s], and not the negative zero. *)
Definition exactly (s : R) (v : fl) : Prop := fin32 v /\ fval v = s /\ v <> S754_zero true /\ exists z, s = IZR z.
Definition f32_int (a : f32) : Prop := f32_finite a /\ exists z, f32_real a = IZR z.

Lemma fval_zero v : fin32 v -> fval v = 0 -> exists s, v = S754_zero s.
Proof.
  intros [_ Hf] E. destruct v as [s| | |s m e]; try done; [by exists s|]. exfalso. unfold fval in E. cbn [SF2R] in E.
  apply eq_0_F2R in E. by destruct s.
Qed.
Lemma exactly_add s1 s2 v1 v2 : exactly s1 v1 -> fin32 v2 -> fval v2 = s2 -> (exists z, s2 = IZR z) -> Rabs (s1 + s2) <= bpow radix2 24 -> exactly (s1 + s2) (fadd v1 v2).
Proof.
  intros (F1 & E1 & N1 & z1 & ->) F2 E2 [z2 ->] H. rewrite <- plus_IZR in *. destruct (int_rnd _ H) as [Hr Hb].
  destruct (SFadd_real 24 128 _ _ v1 v2 F1 F2) as [Fa Va]. { by rewrite E1, E2, <- plus_IZR. }
  rewrite E1, E2, <- plus_IZR, Hr in Va. split_and!; [exact Fa|exact Va| |by eexists].
  intros E. change (fadd v1 v2) with (SFadd 24 128 v1 v2) in E. rewrite E in Va. change (fval (S754_zero true)) with 0 in Va.
  destruct (ffin_B 24 128 v1 F1) as (b1 & -> & G1 & R1). destruct (ffin_B 24 128 v2 F2) as (b2 & -> & G2 & R2).
  rewrite (add_equiv 24 128 prec24 prec24_emax) in E. pose proof (Bplus_correct 24 128 _ _ mode_NE b1 b2 G1 G2) as HB.
  rewrite <- R1, <- R2, E1, E2, <- plus_IZR, Rlt_bool_true in HB by exact Hb. destruct HB as (_ & _ & HB).
  rewrite <- Va, Rcompare_Eq in HB by done.
  assert (Hs : Bsign (Bplus mode_NE b1 b2) = true) by (destruct (Bplus mode_NE b1 b2); try discriminate; injection E as ->; done).
  rewrite Hs in HB. symmetry in HB. apply andb_true_iff in HB as [S1 S2].
  assert (Hneg : forall b : binary_float 24 128, is_finite b = true -> Bsign b = true -> B2SF b <> S754_zero true -> B2R b < 0).
  { intros [s| | |s m e Hm]; cbn; try done; intros _ -> Hz; [done|]. by apply F2R_lt_0. }
  pose proof (Hneg b1 G1 S1 N1) as L1. 
  assert (L2 : B2R b2 <= 0). { destruct b2 as [s| | |s m e Hm]; cbn in *; try done; [lra|]. subst s. by apply F2R_le_0. }
  rewrite <- R1, E1 in L1. rewrite <- R2, E2 in L2.
  rewrite plus_IZR in Va. lra.
Qed.
Lemma exactly_fma s v a b : f32_int a -> f32_int b -> exactly s v -> Rabs (s + f32_real a * f32_real b) <= bpow radix2 24 ->
  exactly (s + f32_real a * f32_real b) (ffma (f32_val a) (f32_val b) v).
Proof.
  intros [Fa [za Ea]] [Fb [zb Eb]] (F & E & Nz & z & ->) H. rewrite Ea, Eb in *. rewrite <- mult_IZR, <- plus_IZR in *.
  destruct (int_rnd _ H) as [Hr Hb]. destruct (f32_val_real a Fa) as [Ga Va], (f32_val_real b Fb) as [Gb Vb].
  destruct (ffma_real (f32_val a) (f32_val b) v Ga Gb F) as [Ff Vf].
  { rewrite Va, Vb, Ea, Eb, E, <- mult_IZR, <- plus_IZR. by rewrite Z.add_comm. }
  rewrite Va, Vb, Ea, Eb, E, <- mult_IZR, <- plus_IZR, Z.add_comm, Hr in Vf. split_and!; [exact Ff|exact Vf| |by eexists].
  intros Z. rewrite Z in Vf. change (fval (S754_zero true)) with 0 in Vf.
  assert (Hz : fval (f32_val a) * fval (f32_val b) + fval v = 0).
  { rewrite Va, Vb, Ea, Eb, E, Vf, <- mult_IZR, <- plus_IZR. f_equal. lia. }
  clear - Z Hz Ga Gb F Nz. set (x := f32_val a) in *. set (y := f32_val b) in *. clearbody x y.
  destruct Ga as [_ Ga], Gb as [_ Gb], F as [_ F].
  destruct x as [sx|sx| |sx mx ex], y as [sy|sy| |sy my ey], v as [sv|sv| |sv mv ev]; try done; cbn [ffma] in Z.
  1,2,3: destruct sv; [done|]; destruct (Bool.eqb _ _); done.
  - rewrite prod_exact in Hz. change (fval (S754_zero sv)) with 0 in Hz. rewrite Rplus_0_r in Hz. apply eq_0_F2R in Hz. by destruct (xorb sx sy).
  - rewrite fma_exact in Hz. apply eq_0_F2R in Hz. by rewrite Hz in Z.
Qed.
Lemma exactly_mul a b : f32_int a -> f32_int b -> Rabs (f32_real a * f32_real b) <= bpow radix2 24 ->
  fin32 (fmul (f32_val a) (f32_val b)) /\ fval (fmul (f32_val a) (f32_val b)) = f32_real a * f32_real b.
Proof.
  intros [Fa [za Ea]] [Fb [zb Eb]] H. destruct (f32_val_real a Fa) as [Ga Va], (f32_val_real b Fb) as [Gb Vb].
  rewrite Ea, Eb in *. rewrite <- mult_IZR in *. destruct (int_rnd _ H) as [Hr Hb].
  destruct (SFmul_real 24 128 _ _ (f32_val a) (f32_val b) Ga Gb) as [F V]; rewrite Va, Vb, <- mult_IZR in *; [done|]. by rewrite Hr in V.
Qed.

Lemma dot_spec_exact x : forall y s v, Forall f32_int x -> Forall f32_int y -> length x = length y -> exactly s v ->
  Rabs s + real_absdot x y <= bpow radix2 24 -> exactly (s + real_dot x y) (dot_spec x y v).
Proof.
  induction x as [|a x IH]; intros [|b y] s v Fx Fy Hl Hv HA; try done.
  { cbn [dot_spec real_dot]. by rewrite Rplus_0_r. }
  apply Forall_cons in Fx as [Fa Fx]. apply Forall_cons in Fy as [Fb Fy]. injection Hl as Hl.
  cbn [dot_spec real_dot real_absdot] in *. pose proof (Rabs_pos s). pose proof (real_absdot_nonneg x y).
  pose proof (Rabs_triang s (f32_real a * f32_real b)).
  destruct (exactly_mul a b Fa Fb) as [Fm Em]; [lra|].
  rewrite <- Rplus_assoc. apply IH; [done..| |lra]. apply exactly_add; [done..| |lra].
  destruct Fa as [_ [za ->]], Fb as [_ [zb ->]]. exists (za * zb)%Z. by rewrite mult_IZR.
Qed.
Lemma exactly_zero : exactly 0 fzero.
Proof. split_and!; [done..|by exists 0%Z]. Qed.
Lemma asm_dot_exact x y : Forall f32_int x -> Forall f32_int y -> length x = length y ->
  real_absdot x y <= bpow radix2 24 -> exactly (real_dot x y) (asm_dot x y).
Proof.
  intros Fx Fy Hl HA.
  assert (H : exactly (real_dot x y) (asm_dot x y) /\ Rabs (real_dot x y) <= real_absdot x y); [|by destruct H].
  apply (asm_dot_N f32_int (fun _ _ s A v => exactly s v /\ Rabs s <= A) (fun _ _ A => A <= bpow radix2 24)); try done.
  - by intros k m s A v [_ H].
  - split; [exact exactly_zero|]. rewrite Rabs_R0. lra.
  - intros k m1 m2 s1 s2 A1 A2 v1 v2 [H1 B1] [H2 B2] HR. pose proof (Rabs_triang s1 s2). split; [|lra].
    destruct H2 as (F2 & E2 & _ & I2). apply exactly_add; [done..|lra].
  - intros k m s A v a b Ha Hb [H1 B1] HR. pose proof (Rabs_triang s (f32_real a * f32_real b)). split; [|lra].
    apply exactly_fma; [done..|lra].
  - intros. lra.
Qed.
Lemma exactly_unique s v w : exactly s v -> exactly s w -> v = w.
Proof.
  intros (F1 & E1 & N1 & _) (F2 & E2 & N2 & _).
  destruct (Req_dec s 0) as [->|Hs].
  - destruct (fval_zero v F1 E1) as [a ->], (fval_zero w F2 E2) as [b ->]. by destruct a, b.
  - destruct (ffin_B 24 128 v F1) as (b1 & -> & G1 & R1). destruct (ffin_B 24 128 w F2) as (b2 & -> & G2 & R2).
    f_equal. apply B2R_inj.
    + by destruct b1.
    + by destruct b2.
    + by rewrite <- R1, <- R2, E1, E2.
Qed.
